(** * Proofs: periodicity, radial velocity, angles, light delay *)
From Coq Require Import Reals Lra Lia ZArith Bool List.
From Coquelicot Require Import Coquelicot.
From Verif Require Import Num CoreOps Inst M_units M_kepler L_real L_kepop Spec_orbit L_orbit L_motion L_pmotion.
Open Scope R_scope.

Section S.
Variable k : consts.
Hypothesis kok : consts_ok k.
Variable x : kargs R.
Variable o : orbit R.
Hypothesis Hinit : kep_init k x = Ok o.
Hypothesis Hph : physical o.
Let F := kep_init_facts k kok x o Hinit Hph.
Local Notation W := (kep_warp o).

(** C17 *)
Lemma Mof_period t (j : Z) : Mof o (t + IZR j * o_period o) = Mof o t + IZR j * (2 * PI).
Proof.
  unfold Mof. rewrite (of_n _ _ _ F). field. generalize (ph_period _ Hph). lra.
Qed.
Lemma true_anomaly_period pad t (j : Z) :
  true_anomaly o W pad (t + IZR j * o_period o) = true_anomaly o W pad t.
Proof.
  rewrite !(true_anomaly_form k kok x o Hinit Hph), Mof_period.
  rewrite kepler_sinf_period, kepler_cosf_period by apply (eo_abs o Hph). reflexivity.
Qed.
Lemma position_nodelay_period a t par pad (j : Z) :
  position_nodelay k o W a (t + IZR j * o_period o) par pad = position_nodelay k o W a t par pad.
Proof. unfold position_nodelay. rewrite true_anomaly_period. reflexivity. Qed.
Lemma position_period a t par ld pad (j : Z) :
  get_position k o W a (t + IZR j * o_period o) par ld pad = get_position k o W a t par ld pad.
Proof.
  unfold get_position. destruct ld; [|apply position_nodelay_period].
  unfold retarded_position.
  assert (Es : retarded_state o W a (t + IZR j * o_period o) pad = retarded_state o W a t pad)
    by (unfold retarded_state; rewrite true_anomaly_period; reflexivity).
  rewrite Es. destruct (retarded_state o W a t pad) as [[u1 u2] u3].
  set (d := light_delay_of k _ _ _ _).
  assert (E : forall b : bool, (if b then (npadr (t + IZR j * o_period o) - d)%num
      else ((t + IZR j * o_period o)%R - d)%num) = (if b then (npadr t - d)%num else (t - d)%num) + IZR j * o_period o).
  { intros b. destruct b; simR; ring. }
  rewrite E. apply position_nodelay_period.
Qed.
Lemma velocity_period m t (j : Z) : get_velocity o W m (t + IZR j * o_period o) = get_velocity o W m t.
Proof. unfold get_velocity. rewrite true_anomaly_period. reflexivity. Qed.
Lemma acceleration_period a m t (j : Z) :
  get_acceleration o W a m (t + IZR j * o_period o) = get_acceleration o W a m t.
Proof. unfold get_acceleration. rewrite true_anomaly_period. reflexivity. Qed.

Lemma motion_periodic t (j : Z) par ld K u :
  let t' := t + IZR j * o_period o in
  get_planet_position k o W t' par ld = get_planet_position k o W t par ld /\
  get_star_position k o W t' par ld = get_star_position k o W t par ld /\
  get_relative_position k o W t' par ld = get_relative_position k o W t par ld /\
  get_relative_angles k o W t' par ld = get_relative_angles k o W t par ld /\
  get_planet_velocity o W t' = get_planet_velocity o W t /\
  get_star_velocity o W t' = get_star_velocity o W t /\
  get_relative_velocity o W t' = get_relative_velocity o W t /\
  get_planet_acceleration o W t' = get_planet_acceleration o W t /\
  get_star_acceleration o W t' = get_star_acceleration o W t /\
  get_relative_acceleration o W t' = get_relative_acceleration o W t /\
  get_radial_velocity k o W t' K u = get_radial_velocity k o W t K u.
Proof.
  intros t'. unfold t'.
  unfold get_planet_position, get_star_position, get_relative_position, get_relative_angles,
    get_planet_velocity, get_star_velocity, get_relative_velocity, get_planet_acceleration,
    get_star_acceleration, get_relative_acceleration, get_radial_velocity.
  unfold get_star_velocity.
  rewrite !position_period, !velocity_period, !acceleration_period, !true_anomaly_period.
  repeat split; reflexivity.
Qed.

(** C18 *)
Lemma rv_derivative t u rv : get_radial_velocity k o W t None (Some u) = Ok rv ->
  exists c, uto (u_Rsun_per_day k) u = Ok c /\
    rv = - c * Derive (fun s => vz (get_star_position k o W s None false)) t /\
    ex_derive (fun s => vz (get_star_position k o W s None false)) t.
Proof.
  unfold get_radial_velocity. intros H. inv_bind H. exists v. split; auto.
  destruct (vel_is_derivative k kok x o Hinit Hph t) as (_ & (_ & _ & Hz) & _).
  rewrite (is_derive_unique (fun s : R => vz (get_star_position k o W s None false)) _ _ Hz).
  destruct (get_star_velocity o W t) as [[a b] c]. inversion H. simR. unfold vz; cbn.
  split; auto. exists c. exact Hz.
Qed.

Lemma rv_default_unit t : get_radial_velocity k o W t None None = get_radial_velocity k o W t None (Some (u_mps k)).
Proof. reflexivity. Qed.

Lemma rv_bad_unit t u : udim u <> (0, 1, -1)%Z -> get_radial_velocity k o W t None (Some u) = Err UnitErr.
Proof.
  intros H. unfold get_radial_velocity, uto, dim_eqb. cbn.
  destruct u as [[[a b] c] s]. cbn in *.
  destruct a; cbn; auto. destruct (Z.eqb_spec 1 b); cbn; auto. destruct (Z.eqb_spec (-1) c); cbn; auto.
  subst. elim H; auto.
  all: destruct b; cbn; auto; destruct p; cbn; auto; destruct c; cbn; auto; destruct p; cbn; auto; elim H; auto.
Qed.

Lemma rv_K_form t u c : uto (u_Rsun_per_day k) u = Ok c ->
  get_radial_velocity k o W t None (Some u) =
  get_radial_velocity k o W t (Some (c * (o_K0 o * o_m_planet o * o_sin_incl o))) None.
Proof.
  intros H. unfold get_radial_velocity. rewrite H. cbn [rbind].
  unfold get_star_velocity, get_velocity.
  destruct (true_anomaly o W true t) as [sf cf]. rewrite sqz3_id.
  unfold rotate_vector. destruct (o_ecc o) as [d|], (o_Omega o); simR; f_equal; ring.
Qed.

Lemma rv_bounds t K u rv : 0 <= K -> get_radial_velocity k o W t (Some K) u = Ok rv ->
  K * (ecc_of o * cosw_of o - 1) <= rv <= K * (ecc_of o * cosw_of o + 1).
Proof.
  intros HK. unfold get_radial_velocity. rewrite (true_anomaly_form k kok x o Hinit Hph).
  assert (Hu := kepler_unit (Mof o t) (eo o) (eo_abs o Hph)).
  set (sf := kepler_sinf _ _) in *. set (cf := kepler_cosf _ _) in *.
  assert (Hw := w_unit o Hph).
  assert (Hb : -1 <= cosw_of o * cf - sinw_of o * sf <= 1).
  { set (a := cosw_of o) in *. set (b := sinw_of o) in *.
    assert ((a * cf - b * sf) * (a * cf - b * sf) <= 1).
    { assert ((a * cf - b * sf) * (a * cf - b * sf) + (a * sf + b * cf) * (a * sf + b * cf) = 1).
      { transitivity ((a * a + b * b) * (sf * sf + cf * cf)); [ring|]. rewrite Hw, Hu. ring. }
      generalize (Rle_0_sqr (a * sf + b * cf)). unfold Rsqr. lra. }
    split; nra. }
  intros H. inversion H; clear H. revert Hb. unfold ecc_of, cosw_of, sinw_of.
  destruct (o_ecc o) as [d|]; simR; intros Hb; split; nra.
Qed.

(** C19 *)
Lemma rel_angles_polar t par ld :
  let '(rho, th) := get_relative_angles k o W t par ld in
  let p := get_relative_position k o W t par ld in
  0 <= rho /\ - PI < th <= PI /\ rho * cos th = vx p /\ rho * sin th = vy p.
Proof.
  unfold get_relative_angles, get_relative_position. rewrite sqz3_id. simR.
  destruct (get_position k o W (- o_a o) t par ld true) as [[X Y] Z]. unfold vx, vy; cbn [fst snd].
  split; [apply sqrt_pos|]. split; [apply Ratan2_bounds|].
  destruct (Req_dec (X * X + Y * Y) 0) as [h|h].
  - assert (X = 0) by nra. assert (Y = 0) by nra. subst. rewrite h, sqrt_0. split; ring.
  - destruct (Ratan2_polar Y X h) as [-> ->].
    assert (0 < sqrt (X * X + Y * Y)) by (apply sqrt_lt_R0; nra). split; field; lra.
Qed.

Lemma rel_angles_parallax t p : 0 < p ->
  let '(rho, th) := get_relative_angles k o W t None false in
  get_relative_angles k o W t (Some p) false = (p * au_per_R_sun k * rho, th).
Proof.
  intros Hp. assert (Hau := ok_au _ kok).
  assert (E := rel_pos k kok x o Hinit Hph t (Some p)). assert (E' := rel_pos k kok x o Hinit Hph t None).
  unfold get_relative_position in E, E'. rewrite sqz3_id in E, E'.
  unfold get_relative_angles. rewrite E, E'. cbn [plxf].
  unfold lin. vcrush.
  set (c := p * au_per_R_sun k). assert (Hc : 0 < c) by (unfold c; nra).
  set (X := - o_a o * 1 * px o t * fst (fst (Pv o)) + - o_a o * 1 * py o t * fst (fst (Qv o))).
  set (Y := - o_a o * 1 * px o t * snd (fst (Pv o)) + - o_a o * 1 * py o t * snd (fst (Qv o))).
  set (X' := _ + _). set (Y' := - o_a o * c * px o t * snd (fst (Pv o)) + _).
  assert (HX : X' = c * X) by (unfold X', X; ring).
  assert (HY : Y' = c * Y) by (unfold Y', Y; ring).
  rewrite HX, HY. simR. f_equal.
  - replace (c * X * (c * X) + c * Y * (c * Y)) with (c * c * (X * X + Y * Y)) by ring.
    rewrite sqrt_mult_alt by nra. rewrite sqrt_square by lra. reflexivity.
  - apply Ratan2_scale; auto.
Qed.

Lemma parallax_ignored t p :
  get_relative_position k o W t (Some p) true = get_relative_position k o W t None true /\
  get_relative_angles k o W t (Some p) true = get_relative_angles k o W t None true.
Proof. split; reflexivity. Qed.

(** C20 *)
(** the line-of-sight coordinate of the body with coefficient a *)
Definition zof (a t : R) : R := vz (lin o a t).
Definition zdot (a t : R) : R := vz (vlin o a t).
Definition zddot (a t : R) : R := vz (alin o a t).

Lemma retarded_state_form a t pad : a <> 0 ->
  retarded_state o W a t pad = (- zdot a t, zof a t, zddot a t).
Proof.
  intros Ha. unfold retarded_state. rewrite (true_anomaly_form k kok x o Hinit Hph).
  assert (HD := Dof_pos o Hph t). assert (Hq := qo_pos o Hph). assert (Hq2 := qo_sqr o Hph).
  assert (Hn : o_n o = 2 * PI / o_period o) by apply (of_n _ _ _ F).
  assert (H1e : 0 < 1 - eo o * eo o) by (generalize (eo_bound o Hph); nra).
  assert (HrD := radius_form o Hph a t).
  assert (Er : exists r, (match o_ecc o with
    | None => (a, 2 * PI / o_period o * a * o_sin_incl o * kepler_cosf (Mof o t) (eo o))
    | Some d => (a * (1 - e_ecc d * e_ecc d) / (1 + e_ecc d * kepler_cosf (Mof o t) (eo o)),
         2 * PI / o_period o * a / sqrt (1 - e_ecc d * e_ecc d) * o_sin_incl o *
          (e_ecc d * e_cosw d + (e_cosw d * kepler_cosf (Mof o t) (eo o) - e_sinw d * kepler_sinf (Mof o t) (eo o))))
    end) = (r, - zdot a t) /\ r = a * Dof o t).
  { eexists. split; [|exact HrD].
    rewrite <- Hn. unfold zdot, vlin, Pv, Qv, cosw_of, sinw_of. vcrush.
    rewrite (cosf_form o t), (sinf_form o t). unfold eo, ecc_of in *.
    destruct (o_ecc o) as [d|] eqn:E.
    - f_equal. fold (qo o) in *.
      assert (Eq : sqrt (1 - e_ecc d * e_ecc d) = qo o)
        by (unfold qo, eo, ecc_of; rewrite E; reflexivity). rewrite Eq.
      unfold Dof, eo, ecc_of in *. rewrite E in *.
      set (c := cos (Eof o t)) in *. set (s := sin (Eof o t)) in *. set (q := qo o) in *.
      set (e := e_ecc d) in *.
      transitivity (o_n o * a * o_sin_incl o *
         ((e_cosw d * ((1 - e * e) * c)) / q - e_sinw d * s) / (1 - e * c)); [field; lra|].
      rewrite <- Hq2. field. lra.
    - f_equal.
      assert (Eq : qo o = 1).
      { unfold qo, eo, ecc_of. rewrite E. replace (1 - 0 * 0) with 1 by ring. apply sqrt_1. }
      assert (ED : Dof o t = 1) by (unfold Dof, eo, ecc_of; rewrite E; ring).
      rewrite Eq, ED. field. }
  destruct Er as (r & Er & HR).
  simR. rewrite Er. rewrite rotate_PQ.
  assert (Hz : vadd (vscale (r * kepler_cosf (Mof o t) (eo o)) (Pv o)) (vscale (r * kepler_sinf (Mof o t) (eo o)) (Qv o))
     = lin o a t).
  { rewrite HR. unfold lin, px, py. rewrite (cosf_form o t), (sinf_form o t).
    f_equal; f_equal; field; lra. }
  rewrite Hz. unfold zof, zddot. destruct (lin o a t) as [[X Y] Z] eqn:El. apply vec_eq; auto.
  assert (Z = vz (lin o a t)) by (rewrite El; reflexivity). cbn. subst Z.
  unfold lin, alin. vcrush. rewrite HR, <- Hn. unfold Pv, Qv; cbn [snd]. field. split; lra.
Qed.

Lemma light_delay_small (z0 vz z az : R) : Rabs az < 1 / 10000000000 ->
  light_delay_of k z0 vz z az = (z0 - z) / (c_light k + vz).
Proof.
  intros H. unfold light_delay_of. simR. destruct (Rltb _ _) eqn:E; auto.
  apply Rltb_false in E. lra.
Qed.
Lemma light_delay_large (z0 v z az : R) (d := light_delay_of k z0 v z az) : 1 / 10000000000 <= Rabs az ->
  0 <= (1 + v / c_light k) * (1 + v / c_light k) - 2 * az * (z0 - z) / (c_light k * c_light k) ->
  az / 2 * (d * d) - (c_light k + v) * d + (z0 - z) = 0.
Proof.
  intros H Hdisc. assert (Hc := ok_c _ kok).
  assert (az <> 0). { intros ->. rewrite Rabs_R0 in H. lra. }
  unfold d, light_delay_of. simR. destruct (Rltb _ _) eqn:E.
  { apply Rltb_true in E. lra. }
  set (S := sqrt _). assert (HS : S * S = (1 + v / c_light k) * (1 + v / c_light k) - 2 * az * (z0 - z) / (c_light k * c_light k))
    by (apply sqr_sqrt; auto).
  transitivity (c_light k * c_light k / (2 * az) * (S * S - (1 + v / c_light k) * (1 + v / c_light k)) + (z0 - z)).
  { field. lra. }
  rewrite HS. field. lra.
Qed.

Definition delay (a t : R) : R := light_delay_of k 0 (- zdot a t) (zof a t) (zddot a t).

Lemma delayed_position a t par : a <> 0 ->
  get_position k o W a t par true true = lin o a (t - delay a t).
Proof.
  intros Ha. unfold get_position, retarded_position. rewrite retarded_state_form by auto.
  fold (delay a t). rewrite (position_form k kok x o Hinit Hph). simR. rewrite Rmult_1_r. reflexivity.
Qed.

Lemma delayed_linear a t : Rabs (zddot a t) < 1 / 10000000000 -> zdot a t < c_light k ->
  c_light k * delay a t = 0 - (zof a t - zdot a t * delay a t).
Proof.
  intros H Hv. unfold delay. rewrite light_delay_small by auto. field. lra.
Qed.
Lemma delayed_quadratic a t : 1 / 10000000000 <= Rabs (zddot a t) ->
  2 * zddot a t * (0 - zof a t) <= (c_light k - zdot a t) * (c_light k - zdot a t) ->
  let d := delay a t in
  c_light k * d = 0 - (zof a t - zdot a t * d - zddot a t / 2 * (d * d)).
Proof.
  intros H Hd d. assert (Hc := ok_c _ kok).
  assert (E := light_delay_large 0 (- zdot a t) (zof a t) (zddot a t) H).
  fold (delay a t) in E. fold d in E. cbn zeta in E.
  assert (0 <= (1 + - zdot a t / c_light k) * (1 + - zdot a t / c_light k) -
      2 * zddot a t * (0 - zof a t) / (c_light k * c_light k)).
  { replace ((1 + - zdot a t / c_light k) * (1 + - zdot a t / c_light k) -
      2 * zddot a t * (0 - zof a t) / (c_light k * c_light k))
      with (((c_light k - zdot a t) * (c_light k - zdot a t) - 2 * zddot a t * (0 - zof a t)) / (c_light k * c_light k))
      by (field; lra).
    apply Rmult_le_pos; [lra|]. left. apply Rinv_0_lt_compat. nra. }
  specialize (E H0). lra.
Qed.

(** acceleration bound *)
Lemma zddot_bound a t : Rabs (zddot a t) <= Rabs a * (o_n o * o_n o) / ((1 - ecc_of o) * (1 - ecc_of o)).
Proof.
  assert (HD := Dof_pos o Hph t). assert (He := eo_bound o Hph).
  assert (HP := PP k kok x o Hinit Hph). assert (HQ := QQ k kok x o Hinit Hph). assert (HPQ := PQ k kok x o Hinit Hph).
  assert (Hi := i_unit k kok x o Hinit Hph). assert (Hw := w_unit o Hph).
  unfold zddot, alin. vcrush.
  assert (Hpp : px o t * px o t + py o t * py o t = Dof o t * Dof o t).
  { unfold px, py, Dof. assert (H := sin2_cos2' (Eof o t)). assert (Hq := qo_sqr o Hph).
    transitivity ((cos (Eof o t) - eo o) * (cos (Eof o t) - eo o) + (qo o * qo o) * (sin (Eof o t) * sin (Eof o t))); [ring|].
    rewrite Hq. replace (sin (Eof o t) * sin (Eof o t)) with (1 - cos (Eof o t) * cos (Eof o t)) by lra. ring. }
  replace (- a * (o_n o * o_n o) * px o t / (Dof o t * Dof o t * Dof o t) * snd (Pv o) +
     - a * (o_n o * o_n o) * py o t / (Dof o t * Dof o t * Dof o t) * snd (Qv o))
    with (a * (o_n o * o_n o) * (/ (Dof o t * Dof o t) * ((o_sin_incl o * ((sinw_of o * px o t + cosw_of o * py o t)) / Dof o t)))).
  2:{ unfold Pv, Qv. cbn [snd]. field. lra. }
  set (u := o_sin_incl o * _ / _).
  assert (Hu : Rabs u <= 1).
  { apply Rabs_le. assert (u * u <= 1); [|split; nra].
    unfold u. set (X := px o t) in *. set (Y := py o t) in *. set (D := Dof o t) in *.
    replace (o_sin_incl o * (sinw_of o * X + cosw_of o * Y) / D * (o_sin_incl o * (sinw_of o * X + cosw_of o * Y) / D))
      with ((o_sin_incl o * o_sin_incl o) * (((sinw_of o * X + cosw_of o * Y) * (sinw_of o * X + cosw_of o * Y)) / (D * D))) by (field; lra).
    assert (0 <= o_sin_incl o * o_sin_incl o <= 1).
    { generalize (Rle_0_sqr (o_sin_incl o)) (Rle_0_sqr (o_cos_incl o)). unfold Rsqr. lra. }
    assert (Hcs : (sinw_of o * X + cosw_of o * Y) * (sinw_of o * X + cosw_of o * Y) <= D * D).
    { rewrite <- Hpp.
      assert ((sinw_of o * X + cosw_of o * Y) * (sinw_of o * X + cosw_of o * Y) +
        (cosw_of o * X - sinw_of o * Y) * (cosw_of o * X - sinw_of o * Y) = X * X + Y * Y).
      { transitivity ((cosw_of o * cosw_of o + sinw_of o * sinw_of o) * (X * X + Y * Y)); [ring|]. rewrite Hw; ring. }
      generalize (Rle_0_sqr (cosw_of o * X - sinw_of o * Y)). unfold Rsqr. lra. }
    assert (0 <= ((sinw_of o * X + cosw_of o * Y) * (sinw_of o * X + cosw_of o * Y)) / (D * D) <= 1).
    { assert (0 < D * D) by nra. split.
      - apply Rmult_le_pos; [apply (Rle_0_sqr (sinw_of o * X + cosw_of o * Y))|left; apply Rinv_0_lt_compat; auto].
      - apply Rmult_le_reg_r with (D * D); auto. unfold Rdiv. rewrite Rmult_assoc, Rinv_l by lra. lra. }
    nra. }
  rewrite !Rabs_mult. unfold Rdiv. rewrite (Rabs_pos_eq (o_n o)) by (generalize (n_pos k kok x o Hinit Hph); lra).
  apply Rmult_le_compat_l.
  { generalize (Rabs_pos a). intros. apply Rmult_le_pos; auto. generalize (Rle_0_sqr (o_n o)). unfold Rsqr. lra. }
  assert (HDl : 1 - eo o <= Dof o t). { unfold Dof. generalize (COS_bound (Eof o t)). nra. }
  fold (eo o).
  apply Rle_trans with (/ ((1 - eo o) * (1 - eo o)) * 1); [|lra].
  apply Rmult_le_compat; try apply Rabs_pos; auto.
  rewrite Rabs_pos_eq. 2:{ left; apply Rinv_0_lt_compat; nra. }
  apply Rinv_le_contravar; nra.
Qed.

Lemma zof_derive a t : is_derive (zof a) t (zdot a t).
Proof. destruct (lin_vderive o Hph a t) as (_ & _ & H). exact H. Qed.
Lemma zdot_derive a t : is_derive (zdot a) t (zddot a t).
Proof. destruct (vlin_vderive o Hph a t) as (_ & _ & H). exact H. Qed.

(** first-order Taylor bound for z *)
Lemma taylor1 (f f' f'' : R -> R) B t d :
  (forall s, is_derive f s (f' s)) -> (forall s, is_derive f' s (f'' s)) ->
  (forall s, Rabs (f'' s) <= B) ->
  Rabs (f (t - d) - (f t - f' t * d)) <= B * (d * d) / 2.
Proof.
  intros H1 H2 HB.
  assert (HBp : 0 <= B) by (eapply Rle_trans; [apply Rabs_pos|apply (HB t)]).
  (* lipschitz f' *)
  assert (L : forall u v, Rabs (f' u - f' v) <= B * Rabs (u - v)).
  { intros u v. destruct (MVT_gen f' u v f'') as (c & _ & Hc).
    - intros; apply H2.
    - intros z _. apply derivable_continuous_pt. exists (f'' z). apply is_derive_Reals, H2.
    - rewrite <- Rabs_Ropp. replace (- (f' u - f' v)) with (f'' c * (v - u)) by lra.
      rewrite Rabs_mult, (Rabs_minus_sym u v). apply Rmult_le_compat_r; auto. apply Rabs_pos. }
  (* g s = f(t - s d) - f t + f' t s d -/+ B d² s²/2, monotone on [0,1] *)
  assert (G : forall sg, (sg = 1 \/ sg = -1) ->
     sg * (f (t - d) - (f t - f' t * d)) <= B * (d * d) / 2).
  { intros sg Hsg.
    set (g := fun s => sg * (f (t - s * d) - (f t - f' t * (s * d))) - B * (d * d) * (s * s) / 2).
    destruct (MVT_gen g 0 1 (fun s => sg * (- d * f' (t - s * d) + f' t * d) - B * (d * d) * s)) as (c & Hc & E).
    - intros s _. unfold g. assert (Hf : ex_derive f (t - s * d)) by (eexists; apply H1).
      auto_derive. { auto. }
      match goal with |- context [Derive (fun u : R => f u) ?y] =>
        rewrite (is_derive_unique (fun u : R => f u) _ _ (H1 y));
        replace y with (t - s * d) by ring end. field.
    - intros s _. unfold g. apply derivable_continuous_pt.
      assert (Hf : ex_derive f (t - s * d)) by (eexists; apply H1).
      assert (ex_derive g s). { unfold g. auto_derive. auto. }
      apply ex_derive_Reals_0. exact H.
    - assert (Hc' : 0 <= c <= 1). { rewrite Rmin_left, Rmax_right in Hc; lra. }
      assert (E0 : g 0 = 0).
      { unfold g. replace (t - 0 * d) with t by ring. field. }
      assert (E1 : g 1 = sg * (f (t - d) - (f t - f' t * d)) - B * (d * d) / 2).
      { unfold g. replace (t - 1 * d) with (t - d) by ring. field. }
      assert (Hl := L t (t - c * d)). replace (t - (t - c * d)) with (c * d) in Hl by ring.
      assert (sg * (- d * f' (t - c * d) + f' t * d) <= B * (d * d) * c).
      { replace (- d * f' (t - c * d) + f' t * d) with (d * (f' t - f' (t - c * d))) by ring.
        apply Rle_trans with (Rabs (sg * (d * (f' t - f' (t - c * d))))); [apply Rle_abs|].
        rewrite !Rabs_mult. replace (Rabs sg) with 1.
        2:{ destruct Hsg; subst. rewrite Rabs_pos_eq; lra. rewrite Rabs_left; lra. }
        rewrite Rmult_1_l. apply Rle_trans with (Rabs d * (B * Rabs (c * d))).
        - apply Rmult_le_compat_l; [apply Rabs_pos|auto].
        - rewrite Rabs_mult, (Rabs_pos_eq c) by lra.
          assert (Ed : Rabs d * Rabs d = d * d) by (rewrite <- Rabs_mult; apply Rabs_pos_eq, (Rle_0_sqr d)).
          rewrite <- Ed. right. ring. }
      rewrite E0, E1 in E. lra. }
  apply Rabs_le. generalize (G 1 (or_introl eq_refl)) (G (-1) (or_intror eq_refl)). lra.
Qed.

Lemma delayed_first_order a t : zdot a t < c_light k ->
  2 * zddot a t * (0 - zof a t) <= (c_light k - zdot a t) * (c_light k - zdot a t) ->
  let d := delay a t in
  Rabs (c_light k * d - (0 - zof a (t - d)))
  <= Rabs a * (o_n o * o_n o) / ((1 - ecc_of o) * (1 - ecc_of o)) * (d * d).
Proof.
  intros Hv Hd d. set (A := _ / _).
  assert (T := taylor1 (zof a) (zdot a) (zddot a) A t d (zof_derive a) (zdot_derive a) (zddot_bound a)).
  assert (Hq : Rabs (c_light k * d - (0 - (zof a t - zdot a t * d))) <= A * (d * d) / 2).
  { destruct (Rlt_dec (Rabs (zddot a t)) (1 / 10000000000)) as [h|h].
    - assert (El := delayed_linear a t h Hv). fold d in El. rewrite El.
      match goal with |- Rabs ?e <= _ => replace e with 0 by ring end. rewrite Rabs_R0.
      assert (0 <= A) by (eapply Rle_trans; [apply Rabs_pos|apply (zddot_bound a t)]).
      generalize (Rle_0_sqr d). unfold Rsqr. intros. nra.
    - apply Rnot_lt_le in h. assert (E := delayed_quadratic a t h Hd). fold d in E. cbn zeta in E.
      replace (c_light k * d - (0 - (zof a t - zdot a t * d))) with (zddot a t / 2 * (d * d)) by lra.
      rewrite Rabs_mult, (Rabs_pos_eq (d * d)) by apply (Rle_0_sqr d).
      unfold Rdiv at 1. rewrite Rabs_mult, (Rabs_pos_eq (/ 2)) by lra.
      assert (Hb := zddot_bound a t). fold A in Hb. generalize (Rle_0_sqr d). unfold Rsqr. intros. nra. }
  replace (c_light k * d - (0 - zof a (t - d))) with
    ((c_light k * d - (0 - (zof a t - zdot a t * d))) + (zof a (t - d) - (zof a t - zdot a t * d))) by ring.
  eapply Rle_trans; [apply Rabs_triang|]. lra.
Qed.
End S.
