(** * Proofs: orbits built from a transit duration, Jacobians *)
From Coq Require Import Reals Lra Lia ZArith Bool List.
From Coquelicot Require Import Coquelicot.
From Verif Require Import Num CoreOps Inst M_units M_kepler L_real L_kepop Spec_orbit Spec_params L_orbit L_params L_params2 L_params3 L_motion L_pmotion.
Open Scope R_scope.

Section S.
Implicit Types (x : kargs R) (o : orbit R).
Variable k : consts.
Hypothesis kok : consts_ok k.

(** sky-plane distance squared and depth of a circular orbit *)
Lemma circ_geom x o t : kep_init k x = Ok o -> physical o -> o_ecc o = None ->
  let p := get_relative_position k o (kep_warp o) t None false in
  let th := 2 * PI * (t - o_t0 o) / o_period o in
  vx p * vx p + vy p * vy p
    = o_a o * o_a o * (sin th * sin th) + o_b o * o_b o * (o_r_star o * o_r_star o) * (cos th * cos th) /\
  vz p = o_a o * o_sin_incl o * cos th.
Proof.
  intros H Hp Hc p th. assert (F := kep_init_facts k kok x o H Hp). assert (Hpi := PI_pos).
  assert (HO := O_unit k kok x o H Hp).
  assert (Ha := ph_a _ Hp). assert (HP := ph_period _ Hp). assert (HR := ph_r_star _ Hp).
  unfold p. rewrite (rel_pos k kok x o H Hp). cbn [plxf]. unfold lin.
  assert (EE : Eof o t = PI / 2 + th).
  { unfold Eof. replace (eo o) with 0 by (unfold eo, ecc_of; rewrite Hc; auto). rewrite ecc_anom_0.
    unfold Mof, th. rewrite (of_t0 _ _ _ F), (of_n _ _ _ F), (of_M0_circ _ _ _ F Hc). field. split; lra. }
  unfold px, py. rewrite EE. rewrite cos_plus, sin_plus, sin_PI2, cos_PI2.
  replace (eo o) with 0 by (unfold eo, ecc_of; rewrite Hc; auto).
  replace (qo o) with 1. 2:{ unfold qo. replace (eo o) with 0 by (unfold eo, ecc_of; rewrite Hc; auto).
    replace (1 - 0 * 0) with 1 by ring. rewrite sqrt_1. auto. }
  assert (Hci : o_a o * o_cos_incl o = o_r_star o * o_b o).
  { rewrite (of_cosi_b _ _ _ F), (of_dcosidb _ _ _ F). unfold ecc_of, sinw_of. rewrite Hc. field. lra. }
  unfold Pv, Qv, cosw_of, sinw_of. rewrite Hc. vcrush. split; [|ring].
  transitivity ((cosO o * cosO o + sinO o * sinO o) *
    (o_a o * o_a o * (sin th * sin th) + (o_a o * o_cos_incl o) * (o_a o * o_cos_incl o) * (cos th * cos th))); [ring|].
  rewrite HO, Hci. ring.
Qed.

(** the attributes of an orbit built from a duration *)
Definition aor_dur (d p b ror : R) : R :=
  sqrt ((1 + ror) * (1 + ror) - b * b * (cos (PI * d / p) * cos (PI * d / p))) / sin (PI * d / p).

Lemma dur_init x o d p b (rs : option R) :
  kep_init k x = Ok o -> ka_ecc x = None ->
  ka_duration x = Some (plain d) -> ka_period x = Some (plain p) -> ka_b x = Some b ->
  ka_r_star x = option_map plain rs ->
  let ror := match ka_ror x with Some r => r | None => 0 end in
  let r := match rs with Some r => r | None => 1 end in
  o_period o = p /\ o_r_star o = r /\ o_b o = b /\ o_ecc o = None /\
  o_a o = r * aor_dur d p b ror /\ o_incl o = acos (o_cos_incl o).
Proof.
  intros H He Hd Hp Hb Hr ror r. revert H. unfold kep_init, kep_duration, kep_omega, kep_incl.
  rewrite He, Hd, Hp, Hb, Hr. intros H. inv_bind H. destruct v as [mp rho].
  cbn [rbind get_aor] in H. unfold consistent_inputs in H. cbn [is_none andb rbind] in H.
  destruct (opt_to_unit mp (u_M_sun k)) as [mv|]; cbn [rbind] in H; [|discriminate H].
  destruct rs as [rr|]; cbn [option_map is_none andb rbind opt_to_unit to_unit plain qu qv rmap] in H;
  destruct rho; cbn [is_none negb orb] in H; try discriminate H;
  destruct (ka_m_star x); cbn [is_none negb orb rbind qu] in H; try discriminate H.
  all: destruct (ka_incl x); cbn [is_none negb orb rbind] in H; try discriminate H; unfold kep_times in H; destruct (ka_t0 x), (ka_tper x); cbn [rbind] in H; try discriminate H;
    apply Ok_inj in H; subst o; simR; cbn [o_period o_r_star o_b o_ecc o_a o_incl o_cos_incl plain qu qv];
    repeat split; auto; unfold aor_dur, r, ror; simR; cbn [npw]; simR; rewrite ?Rmult_1_r; destruct (ka_ror x); auto.
Qed.

Lemma dur_transit x o d p b (rs : option R) :
  kep_init k x = Ok o -> physical o -> ka_ecc x = None ->
  ka_duration x = Some (plain d) -> ka_period x = Some (plain p) -> ka_b x = Some b ->
  ka_r_star x = option_map plain rs ->
  let ror := match ka_ror x with Some r => r | None => 0 end in
  0 < d < p / 2 -> 0 <= b < 1 + ror ->
  let dist t := let q := get_relative_position k o (kep_warp o) t None false in sqrt (vx q * vx q + vy q * vy q) in
  let z t := vz (get_relative_position k o (kep_warp o) t None false) in
  let L := o_r_star o * (1 + ror) in
  (forall m : Z, dist (o_t0 o + IZR m * p - d / 2) = L /\ dist (o_t0 o + IZR m * p + d / 2) = L) /\
  (forall (m : Z) t, Rabs (t - (o_t0 o + IZR m * p)) < d / 2 -> dist t < L) /\
  (forall (m : Z) t, Rabs (t - (o_t0 o + IZR m * p)) <= d / 2 -> 0 < z t) /\
  (forall t, dist t <= L -> 0 < z t -> exists m : Z, Rabs (t - (o_t0 o + IZR m * p)) <= d / 2).
Proof.
  intros H Hph He Hd Hp Hb Hr ror Hdr Hbr dist z L.
  destruct (dur_init x o d p b rs H He Hd Hp Hb Hr) as (EP & ER & EB & EE & EA & EI). fold ror in EA. rewrite <- ER in EA.
  assert (Hpi := PI_pos). assert (Ha := ph_a _ Hph). assert (HR := ph_r_star _ Hph). assert (Hp0 : 0 < p) by lra.
  set (phi := PI * d / p). assert (Hphi : 0 < phi < PI / 2).
  { unfold phi. split. apply Rdiv_lt_0_compat; nra.
    apply Rmult_lt_reg_r with p; auto. replace (PI * d / p * p) with (PI * d) by (field; lra). nra. }
  assert (Hs : 0 < sin phi) by (apply sin_gt_0; lra). assert (Hc : 0 < cos phi) by (apply cos_gt_0; lra).
  assert (H1 := sin2_cos2' phi).
  set (a := o_a o) in *. set (r := o_r_star o) in *.
  assert (Hroot : 0 < (1 + ror) * (1 + ror) - b * b * (cos phi * cos phi)).
  { assert (b * b * (cos phi * cos phi) <= b * b) by nra. assert (b * b < (1 + ror) * (1 + ror)) by nra. lra. }
  assert (EA2 : a * a * (sin phi * sin phi) + b * b * (r * r) * (cos phi * cos phi) = L * L).
  { rewrite EA. unfold aor_dur. fold phi.
    set (w := (1 + ror) * (1 + ror) - b * b * (cos phi * cos phi)) in *.
    transitivity (r * r * (sqrt w * sqrt w) + b * b * (r * r) * (cos phi * cos phi)). field; lra.
    rewrite sqrt_sqrt by lra. unfold w, L. ring. }
  assert (HL : 0 < L) by (unfold L; nra).
  assert (Hgap : 0 < a * a - b * b * (r * r)).
  { assert ((a * a - b * b * (r * r)) * (sin phi * sin phi) = L * L - b * b * (r * r)) by nra.
    assert (0 < L * L - b * b * (r * r)). { unfold L. assert (b * b < (1 + ror) * (1 + ror)) by nra.
       assert (0 < r * r) by nra. nra. }
    assert (0 < sin phi * sin phi) by nra. nra. }
  assert (Hsi : 0 < o_sin_incl o).
  { assert (F := kep_init_facts k kok x o H Hph). rewrite (of_sini _ _ _ F), EI.
    assert (Hci : a * o_cos_incl o = r * b).
    { rewrite (of_cosi_b _ _ _ F), (of_dcosidb _ _ _ F). unfold ecc_of, sinw_of. rewrite EE, EB. fold a r. field. lra. }
    assert (Hlt : o_cos_incl o * o_cos_incl o < 1).
    { apply Rmult_lt_reg_l with (a * a). nra. replace (a * a * (o_cos_incl o * o_cos_incl o)) with (a * o_cos_incl o * (a * o_cos_incl o)) by ring.
      rewrite Hci. nra. }
    assert (-1 < o_cos_incl o < 1) by nra.
    apply sin_gt_0. apply acos_bound_lt; auto. apply acos_bound_lt; auto. }
  assert (G : forall t, let th := 2 * PI * (t - o_t0 o) / p in
     dist t = sqrt (b * b * (r * r) + (a * a - b * b * (r * r)) * (sin th * sin th)) /\ z t = a * o_sin_incl o * cos th).
  { intros t th. destruct (circ_geom x o t H Hph EE) as [D Z]. rewrite EP in D, Z. fold th in D, Z. split; auto.
    unfold dist. rewrite D. f_equal. fold a r. rewrite EB. generalize (sin2_cos2' th). nra. }
  assert (Mth : forall (m : Z) t, 2 * PI * (t - o_t0 o) / p = 2 * PI * (t - (o_t0 o + IZR m * p)) / p + 2 * IZR m * PI).
  { intros. field. lra. }
  assert (Eend : forall th, sin th * sin th = sin phi * sin phi ->
     sqrt (b * b * (r * r) + (a * a - b * b * (r * r)) * (sin th * sin th)) = L).
  { intros th ->. rewrite <- (sqrt_square L) by lra. f_equal. rewrite <- EA2. nra. }
  split; [|split; [|split]].
  - intros m. split.
    + destruct (G (o_t0 o + IZR m * p - d / 2)) as [-> _]. apply Eend. rewrite (Mth m).
      replace (2 * PI * (o_t0 o + IZR m * p - d / 2 - (o_t0 o + IZR m * p)) / p) with (- phi) by (unfold phi; field; lra).
      rewrite sin_period_Z, sin_neg. ring.
    + destruct (G (o_t0 o + IZR m * p + d / 2)) as [-> _]. apply Eend. rewrite (Mth m).
      replace (2 * PI * (o_t0 o + IZR m * p + d / 2 - (o_t0 o + IZR m * p)) / p) with phi by (unfold phi; field; lra).
      rewrite sin_period_Z. ring.
  - intros m t Ht. destruct (G t) as [-> _]. rewrite (Mth m), sin_period_Z.
    set (s := t - (o_t0 o + IZR m * p)) in *. apply Rabs_def2 in Ht.
    assert (Hth : - phi < 2 * PI * s / p < phi).
    { unfold phi. split; (apply Rmult_lt_reg_r with p; [auto|]).
      replace (- (PI * d / p) * p) with (- (PI * d)) by (field; lra). replace (2 * PI * s / p * p) with (2 * PI * s) by (field; lra). nra.
      replace ((PI * d / p) * p) with (PI * d) by (field; lra). replace (2 * PI * s / p * p) with (2 * PI * s) by (field; lra). nra. }
    set (th := 2 * PI * s / p) in *.
    assert (- sin phi < sin th < sin phi).
    { rewrite <- sin_neg. split; apply sin_increasing_1; lra. }
    rewrite <- (sqrt_square L) by lra. apply sqrt_lt_1_alt. split. generalize (Rle_0_sqr (sin th)) (Rle_0_sqr b); unfold Rsqr; nra.
    rewrite <- EA2. assert (sin th * sin th < sin phi * sin phi) by nra. nra.
  - intros m t Ht. destruct (G t) as [_ ->]. rewrite (Mth m), cos_period_Z.
    set (s := t - (o_t0 o + IZR m * p)) in *. apply Rabs_le_between in Ht.
    apply Rmult_lt_0_compat. nra. apply cos_gt_0.
    + apply Rlt_le_trans with (- phi). lra. unfold phi. apply Rmult_le_reg_r with p; auto.
      replace (- (PI * d / p) * p) with (- (PI * d)) by (field; lra). replace (2 * PI * s / p * p) with (2 * PI * s) by (field; lra). nra.
    + apply Rle_lt_trans with phi; [|lra]. unfold phi. apply Rmult_le_reg_r with p; auto.
      replace ((PI * d / p) * p) with (PI * d) by (field; lra). replace (2 * PI * s / p * p) with (2 * PI * s) by (field; lra). nra.
  - intros t Hdt Hz. destruct (G t) as [Ed Ez]. rewrite Ed in Hdt. rewrite Ez in Hz. clear Ed Ez.
    destruct (nearest_Z ((t - o_t0 o) / p)) as [m Hm]. exists m.
    rewrite (Mth m), sin_period_Z in Hdt. rewrite (Mth m), cos_period_Z in Hz.
    set (s := t - (o_t0 o + IZR m * p)) in *.
    assert (Hsb : - (p / 2) <= s <= p / 2).
    { assert (s = ((t - o_t0 o) / p - IZR m) * p) as -> by (unfold s; field; lra). nra. }
    set (th := 2 * PI * s / p) in *.
    assert (Hthb : - PI <= th <= PI).
    { unfold th. split; (apply Rmult_le_reg_r with p; [auto|]); replace (2 * PI * s / p * p) with (2 * PI * s) by (field; lra); nra. }
    assert (Hcth : 0 < cos th). { assert (0 < a * o_sin_incl o) by nra. nra. }
    assert (Hthb2 : - (PI / 2) < th < PI / 2).
    { split. apply Rnot_le_lt. intros Hn. assert (cos th <= 0); [|lra].
      rewrite <- cos_neg. apply cos_le_0; lra.
      apply Rnot_le_lt. intros Hn. assert (cos th <= 0); [|lra]. apply cos_le_0; lra. }
    assert (Hs2 : sin th * sin th <= sin phi * sin phi).
    { assert (W : b * b * (r * r) + (a * a - b * b * (r * r)) * (sin th * sin th) <= L * L).
      { assert (0 <= b * b * (r * r) + (a * a - b * b * (r * r)) * (sin th * sin th)).
        { generalize (Rle_0_sqr (sin th)) (Rle_0_sqr b); unfold Rsqr; nra. }
        rewrite <- (sqrt_sqrt _ H0). assert (Q := sqrt_pos (b * b * (r * r) + (a * a - b * b * (r * r)) * (sin th * sin th))). nra. }
      rewrite <- EA2 in W. apply Rmult_le_reg_l with (a * a - b * b * (r * r)); auto. nra. }
    assert (Habs : - phi <= th <= phi).
    { assert (- sin phi <= sin th <= sin phi) by nra. rewrite <- sin_neg in H0. split; apply sin_incr_0; lra. }
    apply Rabs_le. assert (Es : s = th * p / (2 * PI)) by (unfold th; field; split; lra).
    assert (Ed : d / 2 = phi * p / (2 * PI)) by (unfold phi; field; split; lra).
    rewrite Es, Ed. unfold Rdiv. assert (0 < / (2 * PI)) by (apply Rinv_0_lt_compat; lra).
    assert (0 < p * / (2 * PI)) by nra. split; nra.
Qed.
End S.

Lemma mid_transit k (x : kargs R) o :
  consts_ok k -> kep_init k x = Ok o -> physical o -> sinw_of o <> -1 ->
  let p := get_relative_position k o (kep_warp o) (o_t0 o) None false in
  let r := o_a o * (1 - ecc_of o * ecc_of o) / (1 + ecc_of o * sinw_of o) in
  sqrt (vx p * vx p + vy p * vy p) = Rabs (o_b o) * o_r_star o /\
  vz p = r * o_sin_incl o /\ 0 < r.
Proof.
  intros kok H Hp Hs p r. split; [apply (t0_distance k kok x o H Hp Hs)|].
  destruct (at_t0 k kok x o H Hp) as [E _]. split; [unfold p; rewrite (E Hs); reflexivity|].
  assert (He := eo_bound o Hp). assert (Hea := eo_abs o Hp). assert (Ha := ph_a _ Hp).
  assert (Hb : -1 <= sinw_of o <= 1) by (generalize (w_unit o Hp); nra).
  assert (H1 := eprod_bound (eo o) (sinw_of o) Hea Hb). unfold eo in *.
  unfold r. apply Rdiv_lt_0_compat; [|lra]. apply Rmult_lt_0_compat; nra.
Qed.
Lemma mid_transit_behind k (x : kargs R) o :
  consts_ok k -> kep_init k x = Ok o -> physical o -> sinw_of o = -1 -> 0 < o_sin_incl o ->
  vz (get_relative_position k o (kep_warp o) (o_t0 o) None false) < 0.
Proof.
  intros kok H Hp Hs Hi. destruct (at_t0 k kok x o H Hp) as [_ E]. rewrite (E Hs).
  assert (He := eo_bound o Hp). assert (Ha := ph_a _ Hp). unfold eo in He.
  assert (0 < o_a o * (1 - ecc_of o)) by nra. nra.
Qed.
