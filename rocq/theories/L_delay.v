(** * Light-travel time of slow orbits *)
From Coq Require Import Reals List Bool Arith ZArith Lra Lia Psatz.
From Coquelicot Require Import Coquelicot.
From Verif Require Import Num CoreOps Inst M_units M_kepler M_fin Spec_orbit Spec_params Spec_delay Spec_secondary
  L_real L_kepop L_orbit L_params3 L_fl L_fl3 L_motion L_pmotion L_pmotion2 L_pmotion3 L_pmotion4 L_pmotion5.
Open Scope R_scope.

(** the code's delay: it has the sign of - z and the size of z / c *)
Lemma delay_size k v z az : 0 < c_light k -> 0 <= 2 * az * (0 - z) <= (c_light k - v) * (c_light k - v) ->
  5 * Rabs v <= 2 * c_light k ->
  exists g, 5 / 7 <= g <= 10 / 3 /\ c_light k * light_delay_of k 0 (- v) z az = - g * z.
Proof.
  intros Hc Hd Hv. set (c := c_light k) in *. set (w := 1 + - v / c).
  assert (Hw : 3 / 5 <= w <= 7 / 5).
  { assert (Hv' : Rabs v <= 2 / 5 * c) by lra. apply Rabs_le_between in Hv'.
    unfold w. assert (E : - v / c * c = - v) by (field; lra).
    split; apply (Rmult_le_reg_r c); try exact Hc; rewrite Rmult_plus_distr_r, E; lra. }
  assert (inv : forall u, 3 / 5 <= u <= 7 / 5 -> 5 / 7 <= 1 / u <= 5 / 3).
  { intros u Hu. split; apply (Rmult_le_reg_r u); try lra; unfold Rdiv; rewrite ?Rmult_assoc, ?Rinv_l by lra; lra. }
  destruct (Rlt_dec (Rabs az) (1 / 10000000000)) as [S|S].
  - rewrite light_delay_small by exact S. exists (1 / w). split; [assert (K := inv w Hw); lra|].
    assert (W : c + - v = c * w) by (unfold w; field; lra). assert (P : 0 < c * w) by (apply Rmult_lt_0_compat; lra).
    fold c. rewrite W. field. split; lra.
  - assert (L : 1 / 10000000000 <= Rabs az) by lra.
    assert (Ha : az <> 0) by (intros ->; rewrite Rabs_R0 in L; lra).
    set (D := w * w - 2 * az * (0 - z) / (c * c)).
    assert (cc : 0 < c * c) by nra.
    assert (Ew : (c - v) * (c - v) = w * w * (c * c)) by (unfold w; field; lra).
    assert (Hq : 0 <= 2 * az * (0 - z) / (c * c) <= w * w).
    { split; [apply Rmult_le_pos; [apply Hd|apply Rlt_le, Rinv_0_lt_compat; exact cc]|].
      apply (Rmult_le_reg_r (c * c)); [exact cc|]. unfold Rdiv. rewrite Rmult_assoc, Rinv_l by lra. rewrite Rmult_1_r, <- Ew. apply Hd. }
    assert (HD : 0 <= D <= w * w) by (unfold D; lra).
    assert (Q := sqrt_sqrt D (proj1 HD)). assert (Q0 := sqrt_pos D).
    assert (Qw : sqrt D <= w) by (apply Rsqr_incr_0_var; [unfold Rsqr; lra|lra]).
    exists (2 / (w + sqrt D)). split.
    + split; apply (Rmult_le_reg_r (w + sqrt D)); try lra; unfold Rdiv; rewrite ?Rmult_assoc, ?Rinv_l by lra; lra.
    + unfold light_delay_of. simR. destruct (Rltb _ _) eqn:E; [unfold Rltb in E; destruct (Rlt_dec _ _) in E; [lra|discriminate]|].
      fold c. fold w. change (w * w - 2 * az * (0 - z) / (c * c)) with D.
      apply (Rmult_eq_reg_r (w + sqrt D)); [|lra].
      transitivity (c * c / az * (w * w - sqrt D * sqrt D)); [field; exact Ha|]. rewrite Q.
      replace (w * w - D) with (2 * az * (0 - z) / (c * c)) by (unfold D; ring). assert (W0 : 0 < w + sqrt D) by lra. clearbody D. field. repeat split; lra.
Qed.

Section S.
Variable k : consts.
Hypothesis kok : consts_ok k.
Variables (x : kargs R) (o : orbit R).
Hypothesis Hinit : kep_init k x = Ok o.
Hypothesis Hph : physical o.
Local Notation A := (a_of o).

Lemma peak_sq : peak_speed o * peak_speed o = o_n o * o_n o * (o_a o * o_a o) * ((1 + ecc_of o) / (1 - ecc_of o)) /\ 0 < peak_speed o.
Proof.
  assert (He := eo_bound o Hph). unfold eo in He. unfold peak_speed. rewrite <- (n_eq k x o kok Hinit Hph).
  assert (P : 0 < (1 + ecc_of o) / (1 - ecc_of o)) by (apply Rdiv_lt_0_compat; lra).
  assert (Q := sqrt_sqrt _ (Rlt_le _ _ P)). split.
  - transitivity (o_n o * o_n o * (o_a o * o_a o) * (sqrt ((1 + ecc_of o) / (1 - ecc_of o)) * sqrt ((1 + ecc_of o) / (1 - ecc_of o)))); [ring|]. rewrite Q. reflexivity.
  - assert (N := n_pos k kok x o Hinit Hph). assert (Ha := ph_a _ Hph). apply Rmult_lt_0_compat; [nra|]. apply sqrt_lt_R0. exact P.
Qed.
Lemma Dof_bounds t : 1 - ecc_of o <= Dof o t <= 1 + ecc_of o.
Proof. assert (He := eo_bound o Hph). unfold Dof. assert (C := COS_bound (Eof o t)). unfold eo in *. split; nra. Qed.
Lemma vz_dot v : vz v * vz v <= dot v v.
Proof. unfold dot. generalize (Rle_0_sqr (vx v)) (Rle_0_sqr (vy v)). unfold Rsqr. lra. Qed.
Lemma a_of_sq b : A b * A b <= o_a o * o_a o.
Proof.
  assert (H := a_of_bound k kok x o Hinit Hph b). assert (Ha := ph_a _ Hph). assert (P := Rabs_pos (A b)).
  replace (A b * A b) with (Rabs (A b) * Rabs (A b)); [nra|]. rewrite <- Rabs_mult. apply Rabs_pos_eq. apply Rle_0_sqr.
Qed.
Lemma zof_bound b t : zof o (A b) t * zof o (A b) t <= o_a o * o_a o * (Dof o t * Dof o t).
Proof.
  eapply Rle_trans; [apply vz_dot|]. rewrite (lin_dot k kok x o Hinit Hph). assert (K := a_of_sq b). assert (D := Rle_0_sqr (Dof o t)). unfold Rsqr in D. nra.
Qed.
Lemma zdot_peak b t : Rabs (zdot o (A b) t) <= peak_speed o.
Proof.
  destruct peak_sq as [E P]. assert (He := eo_bound o Hph). unfold eo in He. assert (D := Dof_bounds t).
  apply Rsqr_incr_0_var; [|lra]. rewrite <- Rsqr_abs. unfold Rsqr. rewrite E.
  eapply Rle_trans; [apply vz_dot|]. unfold vlin. rewrite lincomb_dot, (PP k kok x o Hinit Hph), (PQ k kok x o Hinit Hph), (QQ k kok x o Hinit Hph).
  assert (Hq := qo_sqr o Hph). assert (SC := sin2_cos2' (Eof o t)). assert (HD := Dof_pos o Hph t).
  assert (C := COS_bound (Eof o t)). unfold eo in Hq.
  match goal with |- ?l <= _ => replace l with (A b * A b * (o_n o * o_n o) * ((1 + ecc_of o * cos (Eof o t)) / Dof o t)) end.
  2:{ set (s := sin (Eof o t)) in *. set (cc := cos (Eof o t)) in *.
      transitivity (A b * A b * (o_n o * o_n o) * ((s * s + (qo o * qo o) * (cc * cc)) / (Dof o t * Dof o t))).
      - rewrite Hq. replace (s * s) with (1 - cc * cc) by lra. unfold Dof, eo in *. fold cc in HD |- *. field. lra.
      - field. lra. }
  assert (R1 : 0 <= (1 + ecc_of o * cos (Eof o t)) / Dof o t <= (1 + ecc_of o) / (1 - ecc_of o)).
  { split; [apply Rmult_le_pos; [nra|apply Rlt_le, Rinv_0_lt_compat; exact HD]|].
    apply Rmult_le_compat; [nra|apply Rlt_le, Rinv_0_lt_compat; exact HD|nra|]. apply Rinv_le_contravar; lra. }
  assert (K := a_of_sq b). assert (N2 := Rle_0_sqr (o_n o)). assert (A2 := Rle_0_sqr (A b)). unfold Rsqr in *.
  replace (o_n o * o_n o * (o_a o * o_a o)) with (o_a o * o_a o * (o_n o * o_n o)) by ring.
  apply Rmult_le_compat; [apply Rmult_le_pos; assumption|apply R1|apply Rmult_le_compat_r; assumption|apply R1].
Qed.
Lemma zddot_z b t : zddot o (A b) t = - (o_n o * o_n o / (Dof o t * Dof o t * Dof o t)) * zof o (A b) t.
Proof.
  assert (HD := Dof_pos o Hph t). unfold zddot, zof, alin, lin, vadd, vscale, vz, vx, vy. cbn [fst snd]. field. lra.
Qed.
Lemma pull b t : 0 <= 2 * zddot o (A b) t * (0 - zof o (A b) t) <= 2 * (peak_speed o * peak_speed o).
Proof.
  destruct peak_sq as [E P]. assert (He := eo_bound o Hph). unfold eo in He. assert (D := Dof_bounds t). assert (HD := Dof_pos o Hph t).
  rewrite E, zddot_z. set (d := Dof o t) in *. assert (Z := zof_bound b t). fold d in Z. set (z := zof o (A b) t) in *.
  assert (N2 := Rle_0_sqr (o_n o)). assert (Z2 := Rle_0_sqr z). assert (A2 := Rle_0_sqr (o_a o)). unfold Rsqr in *.
  replace (2 * (- (o_n o * o_n o / (d * d * d)) * z) * (0 - z)) with (2 * (o_n o * o_n o * ((z * z) / (d * d) / d))) by (field; lra).
  assert (B : 0 <= z * z / (d * d) <= o_a o * o_a o).
  { assert (0 < d * d) by nra. split; [apply Rmult_le_pos; [exact Z2|apply Rlt_le, Rinv_0_lt_compat; assumption]|].
    apply (Rmult_le_reg_r (d * d)); [assumption|]. unfold Rdiv. rewrite Rmult_assoc, Rinv_l by lra. lra. }
  assert (Id : 0 <= / d <= (1 + ecc_of o) / (1 - ecc_of o)).
  { split; [apply Rlt_le, Rinv_0_lt_compat; exact HD|]. apply Rle_trans with (/ (1 - ecc_of o)); [apply Rinv_le_contravar; lra|].
    assert (0 < / (1 - ecc_of o)) by (apply Rinv_0_lt_compat; lra). unfold Rdiv. nra. }
  assert (B2 : 0 <= z * z / (d * d) / d <= o_a o * o_a o * ((1 + ecc_of o) / (1 - ecc_of o))).
  { split; [apply Rmult_le_pos; [apply B|apply Id]|]. apply Rmult_le_compat; [apply B|apply Id|apply B|apply Id]. }
  split; [apply Rmult_le_pos; [lra|apply Rmult_le_pos; [exact N2|apply B2]]|].
  rewrite (Rmult_assoc (o_n o * o_n o)). apply Rmult_le_compat_l; [lra|]. apply Rmult_le_compat_l; [exact N2|apply B2].
Qed.

Hypothesis Hs : slow k o.
Lemma slow_speed b t : 5 * Rabs (zdot o (A b) t) <= 2 * c_light k.
Proof. assert (H := zdot_peak b t). unfold slow in Hs. lra. Qed.
Lemma slow_disc b t : 0 <= 2 * zddot o (A b) t * (0 - zof o (A b) t) <= (c_light k - zdot o (A b) t) * (c_light k - zdot o (A b) t).
Proof.
  assert (H := pull b t). split; [apply H|]. eapply Rle_trans; [apply H|]. destruct peak_sq as [_ P]. unfold slow in Hs.
  assert (V := zdot_peak b t). apply Rabs_le_between in V. nra.
Qed.
Lemma slow_strict b t : zdot o (A b) t < c_light k.
Proof. assert (H := slow_speed b t). assert (K := Rle_abs (zdot o (A b) t)). assert (C := ok_c _ kok). lra. Qed.

Lemma slow_motion_S b t : moving o b -> let z := vz (pos k o b t None false) in let v := vz (vel o b t) in let a := vz (acc o b t) in
  Rabs v <= peak_speed o /\ v < c_light k /\ 0 <= 2 * a * (0 - z) <= (c_light k - v) * (c_light k - v).
Proof.
  intros Hm z v a.
  assert (Ez : z = zof o (A b) t) by (unfold z; rewrite (pos_lin k kok x o Hinit Hph); reflexivity).
  assert (Ev : v = zdot o (A b) t) by (unfold v; rewrite (vel_lin k kok x o Hinit Hph); reflexivity).
  assert (Ea : a = zddot o (A b) t) by (unfold a; rewrite (acc_lin k kok x o Hinit Hph) by exact Hm; reflexivity).
  rewrite Ez, Ev, Ea. split; [apply zdot_peak|]. split; [apply slow_strict|apply slow_disc].
Qed.
Lemma delay_short b t : 4 * Rabs (delay k o (A b) t) < o_period o.
Proof.
  assert (C := ok_c _ kok). destruct (delay_size k _ _ _ C (slow_disc b t) (slow_speed b t)) as (g & Hg & E). fold (delay k o (A b) t) in E.
  set (d := delay k o (A b) t) in *. assert (Z := zof_bound b t). assert (D := Dof_bounds t). assert (HD := Dof_pos o Hph t).
  assert (He := eo_bound o Hph). unfold eo in He. destruct peak_sq as [Ep P]. assert (N := n_pos k kok x o Hinit Hph). assert (Ha := ph_a _ Hph). assert (HP := ph_period _ Hph).
  assert (Za : Rabs (zof o (A b) t) <= o_a o * (1 + ecc_of o)).
  { assert (0 < o_a o * (1 + ecc_of o)) by (apply Rmult_lt_0_compat; lra). apply Rsqr_incr_0_var; [|lra]. rewrite <- Rsqr_abs. unfold Rsqr. eapply Rle_trans; [exact Z|].
    replace (o_a o * (1 + ecc_of o) * (o_a o * (1 + ecc_of o))) with (o_a o * o_a o * ((1 + ecc_of o) * (1 + ecc_of o))) by ring.
    apply Rmult_le_compat_l; [apply Rmult_le_pos; lra|]. apply Rmult_le_compat; lra. }
  assert (Na : o_n o * (o_a o * (1 + ecc_of o)) <= peak_speed o).
  { apply Rsqr_incr_0_var; [|lra]. unfold Rsqr. rewrite Ep.
    replace (o_n o * (o_a o * (1 + ecc_of o)) * (o_n o * (o_a o * (1 + ecc_of o)))) with (o_n o * o_n o * (o_a o * o_a o) * ((1 + ecc_of o) * (1 + ecc_of o))) by ring.
    apply Rmult_le_compat_l; [assert (0 <= o_n o * o_n o) by nra; assert (0 <= o_a o * o_a o) by nra; nra|].
    apply (Rmult_le_reg_r (1 - ecc_of o)); [lra|]. unfold Rdiv. rewrite (Rmult_assoc (1 + ecc_of o) (/ _)), Rinv_l by lra. nra. }
  assert (Cd : c_light k * Rabs d <= 10 / 3 * (o_a o * (1 + ecc_of o))).
  { rewrite <- (Rabs_pos_eq (c_light k)) at 1 by lra. rewrite <- Rabs_mult, E, Rabs_mult, Rabs_Ropp, (Rabs_pos_eq g) by lra.
    apply Rmult_le_compat; [lra|apply Rabs_pos|apply Hg|exact Za]. }
  assert (Nd : o_n o * Rabs d <= 4 / 3).
  { apply (Rmult_le_reg_l (c_light k)); [exact C|]. unfold slow in Hs.
    apply Rle_trans with (10 / 3 * peak_speed o); [|lra]. apply Rle_trans with (o_n o * (10 / 3 * (o_a o * (1 + ecc_of o)))); [|lra].
    replace (c_light k * (o_n o * Rabs d)) with (o_n o * (c_light k * Rabs d)) by ring. apply Rmult_le_compat_l; lra. }
  assert (En : o_n o * o_period o = 2 * PI) by (rewrite (n_eq k x o kok Hinit Hph); field; lra).
  assert (Pi := PI2_3_2). apply (Rmult_lt_reg_l (o_n o)); [exact N|]. lra.
Qed.

Lemma delay_law_S b t par : moving o b ->
  let z u := vz (pos k o b u None false) in
  exists d g, pos k o b t par true = pos k o b (t - d) None false /\
    5 / 7 <= g <= 10 / 3 /\ c_light k * d = - g * z t /\ 4 * Rabs d < o_period o /\
    Rabs (c_light k * d - - z (t - d))
      <= o_a o * ((2 * PI / o_period o) * (2 * PI / o_period o)) / ((1 - ecc_of o) * (1 - ecc_of o)) * (d * d).
Proof.
  intros Hm z. assert (C := ok_c _ kok). destruct (delay_size k _ _ _ C (slow_disc b t) (slow_speed b t)) as (g & Hg & E). fold (delay k o (A b) t) in E.
  assert (Ez : forall u, z u = zof o (A b) u) by (intro u; unfold z; rewrite (pos_lin k kok x o Hinit Hph); reflexivity).
  exists (delay k o (A b) t), g. rewrite !Ez.
  split; [rewrite (pos_lin k kok x o Hinit Hph); apply (pos_delay k kok x o Hinit Hph); exact Hm|].
  split; [exact Hg|]. split; [exact E|]. split; [apply delay_short|].
  assert (B := delayed_first_order k kok x o Hinit Hph (A b) t (slow_strict b t) (proj2 (slow_disc b t))). cbn zeta in B.
  replace (c_light k * delay k o (A b) t - - zof o (A b) (t - delay k o (A b) t))
    with (c_light k * delay k o (A b) t - (0 - zof o (A b) (t - delay k o (A b) t))) by ring.
  eapply Rle_trans; [apply B|]. rewrite <- (n_eq k x o kok Hinit Hph). unfold Rdiv. apply Rmult_le_compat_r; [generalize (Rle_0_sqr (delay k o (A b) t)); unfold Rsqr; auto|].
  assert (He := eo_bound o Hph). unfold eo in He. apply Rmult_le_compat_r; [left; apply Rinv_0_lt_compat; nra|].
  apply Rmult_le_compat_r; [generalize (Rle_0_sqr (o_n o)); unfold Rsqr; auto|apply (a_of_bound k kok x o Hinit Hph)].
Qed.

(** machine numbers *)
Lemma delayed_fin b t par : moving o b -> pos k (fin_orbit o) b (Fin t) (option_map Fin par) true = fin3 (pos k o b t par true).
Proof.
  intro Hm. assert (C := ok_c _ kok).
  assert (G : get_position k (fin_orbit o) (kep_warp (fin_orbit o)) (Fin (A b)) (Fin t) (option_map Fin par) true true = fin3 (get_position k o (kep_warp o) (A b) t par true true)).
  { apply (retarded_fin k kok o Hph (kep_warp o) (kep_warp (fin_orbit o)) (kep_warp_fin o)); [apply (a_of_nz k kok x o Hinit Hph); exact Hm|].
    rewrite (retarded_state_form k kok x o Hinit Hph) by (apply (a_of_nz k kok x o Hinit Hph); exact Hm).
    split; [assert (K := slow_strict b t); lra|].
    replace ((1 + - zdot o (A b) t / c_light k) * (1 + - zdot o (A b) t / c_light k) - 2 * zddot o (A b) t * (0 - zof o (A b) t) / (c_light k * c_light k))
      with (((c_light k - zdot o (A b) t) * (c_light k - zdot o (A b) t) - 2 * zddot o (A b) t * (0 - zof o (A b) t)) / (c_light k * c_light k)) by (field; lra).
    assert (K := slow_disc b t). apply Rmult_le_pos; [lra|]. apply Rlt_le, Rinv_0_lt_compat. nra. }
  destruct b; cbn [pos a_of] in *; [unfold get_planet_position|unfold get_star_position|unfold get_relative_position]; rewrite sqz3_id, sqz3_fl; exact G.
Qed.

(** a bound orbit passes each point once per period *)
Lemma returns t1 t2 : pos k o Relative t1 None false = pos k o Relative t2 None false -> exists j : Z, t1 - t2 = IZR j * o_period o.
Proof.
  rewrite !(pos_lin k kok x o Hinit Hph). cbn [a_of]. intro E. set (a := - o_a o) in *. assert (Ha := ph_a _ Hph). assert (a0 : a <> 0) by (unfold a; lra).
  assert (G : forall x1 y1 x2 y2, vadd (vscale x1 (Pv o)) (vscale y1 (Qv o)) = vadd (vscale x2 (Pv o)) (vscale y2 (Qv o)) -> x1 = x2 /\ y1 = y2).
  { intros x1 y1 x2 y2 H.
    assert (H1 := f_equal (fun u => dot u (vadd (vscale 1 (Pv o)) (vscale 0 (Qv o)))) H). assert (H2 := f_equal (fun u => dot u (vadd (vscale 0 (Pv o)) (vscale 1 (Qv o)))) H).
    cbv beta in H1, H2. rewrite !lincomb_dot, (PP k kok x o Hinit Hph), (PQ k kok x o Hinit Hph), (QQ k kok x o Hinit Hph) in H1, H2. split; lra. }
  destruct (G _ _ _ _ E) as [G1 G2]. apply Rmult_eq_reg_l in G1; [|exact a0]. apply Rmult_eq_reg_l in G2; [|exact a0].
  unfold px in G1. unfold py in G2. assert (Hq := qo_pos o Hph). apply Rmult_eq_reg_l in G2; [|lra].
  assert (C1 : cos (Eof o t1) = cos (Eof o t2)) by lra.
  assert (S0 : sin (Eof o t1 - Eof o t2) = 0) by (rewrite sin_minus, C1, G2; ring).
  assert (C0 : cos (Eof o t1 - Eof o t2) = 1) by (rewrite cos_minus, C1, G2; generalize (sin2_cos2' (Eof o t2)); lra).
  assert (Sh : sin ((Eof o t1 - Eof o t2) / 2) = 0).
  { assert (K := cos_2a_sin ((Eof o t1 - Eof o t2) / 2)). replace (2 * ((Eof o t1 - Eof o t2) / 2)) with (Eof o t1 - Eof o t2) in K by field. rewrite C0 in K. nra. }
  destruct (sin_eq_0_0 _ Sh) as (j & Hj). exists j.
  assert (N := n_pos k kok x o Hinit Hph). assert (HP := ph_period _ Hph). assert (En : o_n o * o_period o = 2 * PI) by (rewrite (n_eq k x o kok Hinit Hph); field; lra).
  assert (K1 := ecc_anom_spec (Mof o t1) (eo o) (eo_abs o Hph)). assert (K2 := ecc_anom_spec (Mof o t2) (eo o) (eo_abs o Hph)). fold (Eof o t1) in K1. fold (Eof o t2) in K2.
  rewrite G2 in K1. assert (KM : Mof o t1 - Mof o t2 = IZR j * (2 * PI)) by lra. unfold Mof in KM.
  apply (Rmult_eq_reg_l (o_n o)); [|lra]. replace (o_n o * (IZR j * o_period o)) with (IZR j * (o_n o * o_period o)) by ring. rewrite En. lra.
Qed.
End S.

Lemma slow_motion : forall k (x : kargs R) o b t, consts_ok k -> kep_init k x = Ok o -> physical o -> slow k o -> moving o b ->
  let z := vz (pos k o b t None false) in let v := vz (vel o b t) in let a := vz (acc o b t) in
  Rabs v <= peak_speed o /\ v < c_light k /\ 0 <= 2 * a * (0 - z) <= (c_light k - v) * (c_light k - v).
Proof. intros k x o b t kok H Hp Hs Hm. apply (slow_motion_S k kok x o H Hp Hs b t Hm). Qed.
Lemma delay_law : forall k (x : kargs R) o b t par, consts_ok k -> kep_init k x = Ok o -> physical o -> slow k o -> moving o b ->
  let z u := vz (pos k o b u None false) in
  exists d g, pos k o b t par true = pos k o b (t - d) None false /\
    5 / 7 <= g <= 10 / 3 /\ c_light k * d = - g * z t /\ 4 * Rabs d < o_period o /\
    Rabs (c_light k * d - - z (t - d))
      <= o_a o * ((2 * PI / o_period o) * (2 * PI / o_period o)) / ((1 - ecc_of o) * (1 - ecc_of o)) * (d * d).
Proof. intros k x o b t par kok H Hp Hs Hm. apply (delay_law_S k kok x o H Hp Hs b t par Hm). Qed.
