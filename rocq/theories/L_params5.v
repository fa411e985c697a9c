(** * Proofs: eccentric duration, Jacobians, deviations of the constructor *)
From Coq Require Import Reals Lra Lia ZArith Bool List.
From Coquelicot Require Import Coquelicot.
From Verif Require Import Num CoreOps Inst M_units M_kepler L_real L_kepop Spec_orbit Spec_params L_orbit L_params L_params2 L_params3 L_params4 L_motion L_pmotion.
Open Scope R_scope.

Section S.
Implicit Types (x : kargs R) (o : orbit R).
Variable k : consts.
Hypothesis kok : consts_ok k.

(** ** C09 *)
Lemma ecc_dur_b x o q : kep_init k x = Ok o -> physical o -> ka_ecc x <> None -> ka_duration x = Some q ->
  exists d, to_unit q (u_day k) = Ok d /\ o_duration o = Some d /\
  let F := (1 + ecc_of o * sinw_of o) / (1 - ecc_of o * ecc_of o) in
  let c := sin (PI * d * F / o_period o) in
  let u := o_a_planet o / o_r_star o in
  ((c * F) * (c * F) <> 1 -> 0 <= ((u * c) * (u * c) - 1) / ((c * F) * (c * F) - 1) ->
   0 <= o_b o /\ c * c * (u * u - o_b o * F * (o_b o * F)) = 1 - o_b o * o_b o).
Proof.
  intros H Hph He Hd. destruct Hph as [pa pp pr pm pmp pmt pci pe po]. revert H. unfold kep_init, kep_duration, kep_omega, kep_incl.
  destruct (ka_ecc x) as [e|]; [|congruence]. rewrite Hd. intros H.
  inv_bind H. destruct v as [mp rho]. cbn [rbind] in H. inv_bind H. destruct v as [[[[[A P] RHO] RS] MS] MP].
  assert (W : exists w, match ka_omega x with
             | Some w => if negb (is_none (ka_sin_omega x)) && negb (is_none (ka_cos_omega x)) then Err ValueError
                 else Ok (Some {| e_ecc := e; e_omega := w; e_cosw := ncos w; e_sinw := nsin w |})
             | None => match ka_sin_omega x, ka_cos_omega x with
                 | Some s, Some c => Ok (Some {| e_ecc := e; e_omega := natan2 s c; e_cosw := c; e_sinw := s |})
                 | _, _ => Err ValueError end end = Ok (Some w) /\ e_ecc w = e).
  { destruct (ka_omega x), (ka_sin_omega x), (ka_cos_omega x); cbn [is_none negb andb] in *; try discriminate H;
      eexists; split; reflexivity. }
  destruct W as (w & EW & Ew). rewrite EW in H. cbn [rbind] in H.
  destruct (ka_b x); [cbn in H; destruct (is_none (ka_incl x)); discriminate H|].
  destruct (ka_incl x); [discriminate H|].
  destruct (to_unit q (u_day k)) as [d|]; [|discriminate H]. cbn [rbind] in H. exists d. split; auto.
  inv_bind H. destruct v as [t0 tp]. apply Ok_inj in H. subst o.
  cbn [o_duration o_b o_period o_a_planet o_r_star] in *. split; auto.
  unfold ecc_of, sinw_of. cbn [o_ecc] in *. specialize (pe w eq_refl). specialize (po w eq_refl).
  set (e' := e_ecc w) in *. set (s := e_sinw w) in *. set (c' := e_cosw w) in *.
  unfold ecc_duration_b. fold e' s. simR. cbn [npw]. simR.
  set (F := (1 + e' * s) / (1 - e' * e')). set (c := sin (PI * d * F / P)). set (u := - A * MS / (MS + MP) / RS).
  assert (H1 : 0 < 1 - e' * e') by nra. assert (Hs : -1 <= s <= 1) by nra.
  assert (H2 : 1 + e' * s = F * (1 - e' * e')) by (unfold F; field; lra).
  intros HD HN.
  replace ((u * u * (c * c) - 1) /
    (c * c * (e' * s * (e' * s)) + 2 * (c * c) * (e' * s) + c * c - e' * (e' * (e' * e')) + 2 * (e' * e') - 1))
   with ((u * c * (u * c) - 1) / (c * F * (c * F) - 1) / ((1 - e' * e') * (1 - e' * e'))).
  2:{ replace (c * c * (e' * s * (e' * s)) + 2 * (c * c) * (e' * s) + c * c - e' * (e' * (e' * e')) + 2 * (e' * e') - 1)
       with (c * c * (1 + e' * s) * (1 + e' * s) - (1 - e' * e') * (1 - e' * e')) by ring. rewrite H2.
      assert (c * F * (c * F) - 1 <> 0) by lra.
      replace (c * c * (F * (1 - e' * e')) * (F * (1 - e' * e')) - (1 - e' * e') * (1 - e' * e'))
        with ((c * F * (c * F) - 1) * ((1 - e' * e') * (1 - e' * e'))) by ring.
      field. split; [lra|]. auto. }
  set (N := (u * c * (u * c) - 1) / (c * F * (c * F) - 1)) in *.
  assert (ER : sqrt (N / ((1 - e' * e') * (1 - e' * e'))) * (1 - e' * e') = sqrt N).
  { rewrite sqrt_div_alt by nra. rewrite sqrt_square by lra. field. lra. }
  rewrite ER. split. apply sqrt_pos.
  replace (sqrt N * F * (sqrt N * F)) with (sqrt N * sqrt N * F * F) by ring. rewrite !sqrt_sqrt by auto.
  unfold N. field. lra.
Qed.

Lemma ecc_dur_massless x o q : kep_init k x = Ok o -> physical o -> ka_ecc x <> None -> ka_duration x = Some q ->
  o_m_planet o = 0 ->
  exists d, to_unit q (u_day k) = Ok d /\
  let F := (1 + ecc_of o * sinw_of o) / (1 - ecc_of o * ecc_of o) in
  let c := sin (PI * d * F / o_period o) in
  let u := o_a o / o_r_star o in
  ((c * F) * (c * F) <> 1 -> 0 <= ((u * c) * (u * c) - 1) / ((c * F) * (c * F) - 1) ->
   0 <= o_b o /\ c * c * (o_a o * o_sin_incl o * (o_a o * o_sin_incl o))
     = o_r_star o * o_r_star o * (1 - o_b o * o_b o)).
Proof.
  intros H Hph He Hd Hm. assert (F0 := kep_init_facts k kok x o H Hph).
  destruct (ecc_dur_b x o q H Hph He Hd) as (d & Ed & _ & HB). exists d. split; auto.
  set (F := (1 + ecc_of o * sinw_of o) / (1 - ecc_of o * ecc_of o)) in *. cbn zeta in *.
  assert (HR := ph_r_star _ Hph). assert (Ha := ph_a _ Hph). assert (Hmt := ph_m_total _ Hph).
  assert (Eap : o_a_planet o = - o_a o).
  { rewrite (of_a_planet _ _ _ F0), (of_mtot _ _ _ F0). rewrite Hm in *. field. lra. }
  rewrite Eap in HB. intros H1 H2.
  set (c := sin (PI * d * F / o_period o)) in *.
  destruct HB as [B1 B2]; auto.
  { replace (- o_a o / o_r_star o * c * (- o_a o / o_r_star o * c)) with (o_a o / o_r_star o * c * (o_a o / o_r_star o * c)) by (field; lra). auto. }
  split; auto.
  assert (Hi := i_unit k kok x o H Hph).
  assert (Hci : o_a o * o_cos_incl o = o_b o * F * o_r_star o).
  { rewrite (of_cosi_b _ _ _ F0), (of_dcosidb _ _ _ F0). fold F. field. lra. }
  replace (o_a o * o_sin_incl o * (o_a o * o_sin_incl o)) with (o_a o * o_a o * (o_sin_incl o * o_sin_incl o)) by ring.
  replace (o_sin_incl o * o_sin_incl o) with (1 - o_cos_incl o * o_cos_incl o) by lra.
  replace (o_a o * o_a o * (1 - o_cos_incl o * o_cos_incl o)) with (o_a o * o_a o - o_a o * o_cos_incl o * (o_a o * o_cos_incl o)) by ring.
  rewrite Hci. rewrite <- B2. field. lra.
Qed.

Lemma ecc_dur_massive x o q : kep_init k x = Ok o -> physical o -> ka_ecc x <> None -> ka_duration x = Some q ->
  0 < o_m_planet o ->
  exists d, to_unit q (u_day k) = Ok d /\
  let F := (1 + ecc_of o * sinw_of o) / (1 - ecc_of o * ecc_of o) in
  let c := sin (PI * d * F / o_period o) in
  let u := o_a_planet o / o_r_star o in
  ((c * F) * (c * F) <> 1 -> 0 <= ((u * c) * (u * c) - 1) / ((c * F) * (c * F) - 1) -> c <> 0 ->
   c * c * (o_a o * o_sin_incl o * (o_a o * o_sin_incl o))
     <> o_r_star o * o_r_star o * (1 - o_b o * o_b o)).
Proof.
  intros H Hph He Hd Hm. assert (F0 := kep_init_facts k kok x o H Hph).
  destruct (ecc_dur_b x o q H Hph He Hd) as (d & Ed & _ & HB). exists d. split; auto.
  set (F := (1 + ecc_of o * sinw_of o) / (1 - ecc_of o * ecc_of o)) in *. cbn zeta in *.
  assert (HR := ph_r_star _ Hph). assert (Ha := ph_a _ Hph). assert (Hmt := ph_m_total _ Hph).
  set (c := sin (PI * d * F / o_period o)) in *.
  intros H1 H2 H3. destruct HB as [B1 B2]; auto.
  assert (Hi := i_unit k kok x o H Hph).
  assert (Hci : o_a o * o_cos_incl o = o_b o * F * o_r_star o).
  { rewrite (of_cosi_b _ _ _ F0), (of_dcosidb _ _ _ F0). fold F. field. lra. }
  replace (o_a o * o_sin_incl o * (o_a o * o_sin_incl o)) with (o_a o * o_a o * (o_sin_incl o * o_sin_incl o)) by ring.
  replace (o_sin_incl o * o_sin_incl o) with (1 - o_cos_incl o * o_cos_incl o) by lra.
  replace (o_a o * o_a o * (1 - o_cos_incl o * o_cos_incl o)) with (o_a o * o_a o - o_a o * o_cos_incl o * (o_a o * o_cos_incl o)) by ring.
  rewrite Hci. rewrite <- B2. intros HE.
  assert (c * c * (o_a o * o_a o - o_a_planet o * o_a_planet o) = 0).
  { transitivity (c * c * (o_a o * o_a o - o_b o * F * o_r_star o * (o_b o * F * o_r_star o)) -
      o_r_star o * o_r_star o * (c * c * (o_a_planet o / o_r_star o * (o_a_planet o / o_r_star o) - o_b o * F * (o_b o * F)))).
    field. lra. rewrite HE. ring. }
  assert (Hcc : c * c <> 0) by (intros E; apply H3; apply Rmult_integral in E; tauto).
  apply Rmult_integral in H0. destruct H0; [contradiction|].
  assert (Hms := ph_m_star _ Hph).
  assert (Hx : o_a_planet o * o_m_total o = - o_a o * o_m_star o).
  { rewrite (of_a_planet _ _ _ F0), (of_mtot _ _ _ F0). field. lra. }
  rewrite (of_mtot _ _ _ F0) in Hx.
  assert (Hy : o_a_planet o * o_a_planet o * ((o_m_star o + o_m_planet o) * (o_m_star o + o_m_planet o))
       = o_a o * o_a o * (o_m_star o * o_m_star o)).
  { transitivity ((o_a_planet o * (o_m_star o + o_m_planet o)) * (o_a_planet o * (o_m_star o + o_m_planet o))); [ring|]. rewrite Hx. ring. }
  replace (o_a_planet o * o_a_planet o) with (o_a o * o_a o) in Hy by lra.
  apply Rmult_eq_reg_l in Hy; nra.
Qed.

Lemma ecc_ror_ignored x r : ka_ecc x <> None -> kep_init k (set_ror x r) = kep_init k x.
Proof.
  intros He. unfold kep_init, kep_duration, kep_units, kep_omega, kep_incl, kep_times, set_ror. kprojx. destruct (ka_ecc x); [|congruence]. reflexivity.
Qed.

(** ** C10 *)
Definition aor_grad (d p b ror : R) : R :=
  PI * cos (PI * d / p) * (b * b - (1 + ror) * (1 + ror))
  / (sqrt ((1 + ror) * (1 + ror) - b * b * (cos (PI * d / p) * cos (PI * d / p))) * p * (sin (PI * d / p) * sin (PI * d / p))).

Lemma aor_derive d p b ror : 0 < d < p / 2 -> 0 <= b < 1 + ror ->
  is_derive (fun d => aor_dur d p b ror) d (aor_grad d p b ror) /\ 0 < aor_dur d p b ror /\ aor_grad d p b ror < 0.
Proof.
  intros Hd Hb. assert (Hpi := PI_pos). assert (Hp0 : 0 < p) by lra.
  set (phi := PI * d / p). assert (Hphi : 0 < phi < PI / 2).
  { unfold phi. split. apply Rdiv_lt_0_compat; nra.
    apply Rmult_lt_reg_r with p; auto. replace (PI * d / p * p) with (PI * d) by (field; lra). nra. }
  assert (Hs : 0 < sin phi) by (apply sin_gt_0; lra). assert (Hc : 0 < cos phi) by (apply cos_gt_0; lra).
  assert (H1 := sin2_cos2' phi).
  assert (Hroot : 0 < (1 + ror) * (1 + ror) - b * b * (cos phi * cos phi)).
  { assert (b * b * (cos phi * cos phi) <= b * b) by nra. assert (b * b < (1 + ror) * (1 + ror)) by nra. lra. }
  assert (Hsq := sqrt_lt_R0 _ Hroot).
  split; [|split].
  - unfold aor_dur, aor_grad. fold phi.
    auto_derive; change (PI * d * / p) with phi.
    { repeat split; auto. lra. }
    set (w := (1 + ror) * (1 + ror) - b * b * (cos phi * cos phi)) in *. 
    replace ((1 + ror) * (1 + ror) + - (b * b * (cos phi * cos phi))) with w by (unfold w; ring).
    assert (Ew : sqrt w * sqrt w = w) by (apply sqrt_sqrt; lra).
    set (S := sqrt w) in *.
    match goal with |- ?L = ?R => 
      replace L with ((b * b * cos phi * (sin phi * sin phi) - S * S * cos phi) * PI / (S * p * (sin phi * sin phi))) by (field; repeat split; lra) end.
    rewrite Ew. unfold w.
    replace (b * b * cos phi * (sin phi * sin phi) - ((1 + ror) * (1 + ror) - b * b * (cos phi * cos phi)) * cos phi)
      with (cos phi * (b * b * (sin phi * sin phi + cos phi * cos phi) - (1 + ror) * (1 + ror))) by ring.
    rewrite H1. field. repeat split; lra.
  - unfold aor_dur. fold phi. apply Rdiv_lt_0_compat; auto.
  - unfold aor_grad. fold phi. set (w := (1 + ror) * (1 + ror) - b * b * (cos phi * cos phi)) in *.
    assert (0 < PI * cos phi * ((1 + ror) * (1 + ror) - b * b) / (sqrt w * p * (sin phi * sin phi))).
    { apply Rdiv_lt_0_compat. { apply Rmult_lt_0_compat; [apply Rmult_lt_0_compat; auto|nra]. } { repeat apply Rmult_lt_0_compat; auto. } }
    replace (PI * cos phi * (b * b - (1 + ror) * (1 + ror)) / (sqrt w * p * (sin phi * sin phi)))
      with (- (PI * cos phi * ((1 + ror) * (1 + ror) - b * b) / (sqrt w * p * (sin phi * sin phi)))) by (field; repeat split; lra).
    lra.
Qed.

Lemma dur_family x o d0 p b (rs : option R) :
  kep_init k (set_duration x (Some (plain d0))) = Ok o -> ka_ecc x = None ->
  ka_period x = Some (plain p) -> ka_b x = Some b -> ka_r_star x = option_map plain rs ->
  let ror := match ka_ror x with Some r => r | None => 0 end in
  let r := match rs with Some r => r | None => 1 end in
  o_r_star o = r /\ o_period o = p /\
  forall d, exists o', kep_init k (set_duration x (Some (plain d))) = Ok o' /\
    o_m_planet o' = o_m_planet o /\ o_r_star o' = r /\
    o_a o' = r * aor_dur d p b ror /\
    o_m_star o' = 4 * PI * PI * (o_a o' * (o_a o' * o_a o')) / (G_grav k * (p * p)) - o_m_planet o /\
    o_rho_star o' = o_m_star o' / (4 * PI * (r * (r * r)) / 3) * gcc_per_sun k /\
    o_a_star o' = o_a o' * o_m_planet o / (o_m_star o' + o_m_planet o) /\
    o_a_planet o' = - o_a o' * o_m_star o' / (o_m_star o' + o_m_planet o) /\
    (d = d0 -> o' = o) /\
    exists j, o_jac o' = Some j /\
      j_a j = r * aor_grad d p b ror /\
      j_a_star j = r * aor_grad d p b ror * o_m_planet o / (o_m_star o' + o_m_planet o) /\
      j_a_planet j = - (r * aor_grad d p b ror) * o_m_star o' / (o_m_star o' + o_m_planet o) /\
      j_rho j = 9 * PI * (o_a o' / r * (o_a o' / r)) * aor_grad d p b ror * gcc_per_sun k / (G_grav k * (p * p)).
Proof.
  intros H He Hp Hb Hr ror r. revert H. unfold kep_init, kep_duration, kep_omega, kep_incl, kep_units, kep_times. kprojx.
  rewrite He, Hp, Hb, Hr. intros H. inv_bind H. destruct v as [mp rho]. cbn [rbind].
  cbn [rbind get_aor] in H |- *. unfold consistent_inputs in H |- *. cbn [is_none andb rbind] in H |- *.
  destruct (opt_to_unit mp (u_M_sun k)) as [mv|]; cbn [rbind] in H |- *; [|discriminate H].
  destruct rs as [rr|]; cbn [option_map is_none andb rbind opt_to_unit to_unit plain qu qv rmap] in H |- *;
  (destruct rho; cbn [is_none negb orb] in H |- *; try discriminate H);
  (destruct (ka_m_star x); cbn [is_none negb orb rbind qu] in H |- *; try discriminate H);
  (destruct (ka_incl x); cbn [is_none negb orb rbind] in H |- *; try discriminate H);
  destruct (ka_t0 x), (ka_tper x); cbn [rbind] in H |- *; try discriminate H;
    apply Ok_inj in H; subst o;
    (split; [reflexivity|]); (split; [reflexivity|]);
    intros d; eexists; (split; [reflexivity|]);
    cbn [o_m_planet o_r_star o_a o_m_star o_rho_star o_a_star o_a_planet o_jac];
    (repeat split; [..|intros ->; reflexivity|eexists; split; [reflexivity|cbn [j_a j_a_star j_a_planet j_rho]]]);
    unfold aor_dur, aor_grad, r, ror; simR; cbn [npw]; simR;
    destruct (ka_ror x); rewrite ?Rmult_1_r; repeat split; reflexivity.
Qed.

Lemma jac_duration x o d0 p b (rs : option R) :
  kep_init k (set_duration x (Some (plain d0))) = Ok o -> ka_ecc x = None ->
  ka_period x = Some (plain p) -> ka_b x = Some b -> ka_r_star x = option_map plain rs ->
  0 < d0 < p / 2 -> 0 <= b < 1 + match ka_ror x with Some r => r | None => 0 end ->
  0 < o_r_star o ->
  let A f d := attr (kep_init k (set_duration x (Some (plain d)))) f in
  exists j, o_jac o = Some j /\
    is_derive (A (@o_a R)) d0 (j_a j) /\
    is_derive (A (@o_rho_star R)) d0 (j_rho j) /\
    (is_derive (A (@o_a_star R)) d0 (j_a_star j) <-> o_m_planet o = 0) /\
    (is_derive (A (@o_a_planet R)) d0 (j_a_planet j) <-> o_m_planet o = 0).
Proof.
  intros H He Hp Hb Hr Hd Hbr HR A. assert (Hpi := PI_pos). assert (HG := ok_G _ kok).
  assert (Hp0 : 0 < p) by lra.
  destruct (dur_family x o d0 p b rs H He Hp Hb Hr) as (Er & EP & Fam).
  set (ror := match ka_ror x with Some r => r | None => 0 end) in *.
  set (r := match rs with Some r => r | None => 1 end) in *. rewrite Er in HR.
  destruct (aor_derive d0 p b ror Hd Hbr) as (Da & Pa & Ng).
  set (mp := o_m_planet o) in *.
  set (g := aor_grad d0 p b ror) in *. set (f := fun d => aor_dur d p b ror) in *.
  set (K := 4 * PI * PI / (G_grav k * (p * p))).
  assert (HK : 0 < K). { unfold K. apply Rdiv_lt_0_compat. assert (0 < PI * PI) by (apply Rmult_lt_0_compat; auto); lra. assert (0 < p * p) by nra. apply Rmult_lt_0_compat; auto. }
  set (af := fun d => r * f d).
  assert (Daf : is_derive af d0 (r * g)).
  { unfold af. apply (is_derive_scal f d0 r g Da). }
  assert (Paf : 0 < af d0). { unfold af, f. nra. }
  assert (E1 : forall d, A (@o_a R) d = af d /\
     A (@o_rho_star R) d = (K * (af d * (af d * af d)) - mp) / (4 * PI * (r * (r * r)) / 3) * gcc_per_sun k /\
     A (@o_a_star R) d = af d * mp / (K * (af d * (af d * af d))) /\
     A (@o_a_planet R) d = - af d * (K * (af d * (af d * af d)) - mp) / (K * (af d * (af d * af d)))).
  { intros d. destruct (Fam d) as (o' & Ei & Em & ER & Ea & Ems & Erho & Eas & Eap & _).
    assert (Ems' : o_m_star o' = K * (af d * (af d * af d)) - mp).
    { rewrite Ems, Ea. fold ror. unfold K, af, f. fold mp. field. split; lra. }
    unfold A. rewrite Ei. cbn [attr]. rewrite Erho, Eas, Eap, Ems', Ea. fold (f d). fold (af d).
    replace (K * (af d * (af d * af d)) - mp + mp) with (K * (af d * (af d * af d))) by ring. auto. }
  destruct (Fam d0) as (o' & Ei & Em & ER & Ea & Ems & Erho & Eas & Eap & Eo & j & Ej & J1 & J2 & J3 & J4).
  specialize (Eo eq_refl). subst o'. exists j. split; auto. fold g in J1, J2, J3, J4. fold mp in J2, J3.
  fold ror in Ea. fold (f d0) in Ea. fold (af d0) in Ea.
  assert (Ems' : o_m_star o + mp = K * (af d0 * (af d0 * af d0))).
  { rewrite Ems, Ea. unfold K. fold mp. field. split; lra. }
  assert (Hm : 0 < K * (af d0 * (af d0 * af d0))) by (assert (0 < af d0 * af d0) by nra; assert (0 < af d0 * (af d0 * af d0)) by nra; nra).
  assert (Xa : forall (F : R -> R) l, is_derive F (af d0) l -> is_derive (fun d => F (af d)) d0 (r * g * l)).
  { intros F l HF. exact (is_derive_comp F af d0 l (r * g) HF Daf). }
  assert (Hrg : r * g <> 0) by nra.
  assert (Dst : is_derive (A (@o_a_star R)) d0 (- 2 * (r * g) * mp / (K * (af d0 * (af d0 * af d0))))).
  { eapply is_derive_ext. intros t. symmetry. apply (proj2 (proj2 (E1 t))).
    replace (- 2 * (r * g) * mp / (K * (af d0 * (af d0 * af d0))))
      with (r * g * (- 2 * mp / (K * (af d0 * (af d0 * af d0))))) by (field; lra).
    apply (Xa (fun y => y * mp / (K * (y * (y * y))))). auto_derive.
    nra. set (y := af d0) in *. field. split; lra. }
  assert (Dpl : is_derive (A (@o_a_planet R)) d0 (- (r * g) - 2 * (r * g) * mp / (K * (af d0 * (af d0 * af d0))))).
  { eapply is_derive_ext. intros t. symmetry. apply (proj2 (proj2 (E1 t))).
    replace (- (r * g) - 2 * (r * g) * mp / (K * (af d0 * (af d0 * af d0))))
      with (r * g * (- 1 - 2 * mp / (K * (af d0 * (af d0 * af d0))))) by (field; lra).
    apply (Xa (fun y => - y * (K * (y * (y * y)) - mp) / (K * (y * (y * y))))). auto_derive.
    nra. set (y := af d0) in *. field. split; lra. }
  split; [|split; [|split]].
  - rewrite J1. eapply is_derive_ext. intros t. symmetry. apply (E1 t). auto.
  - rewrite J4. eapply is_derive_ext. intros t. symmetry. apply (proj2 (E1 t)).
    rewrite Ea. replace (9 * PI * (af d0 / r * (af d0 / r)) * g * gcc_per_sun k / (G_grav k * (p * p)))
     with (r * g * (3 * K * (af d0 * af d0) / (4 * PI * (r * (r * r)) / 3) * gcc_per_sun k)) by (unfold K; field; repeat split; lra).
    apply (Xa (fun y => (K * (y * (y * y)) - mp) / (4 * PI * (r * (r * r)) / 3) * gcc_per_sun k)). auto_derive; auto.
    field. split; lra.
  - rewrite J2, Ems'. split; intros HD.
    + assert (EU := is_derive_unique _ _ _ Dst). rewrite (is_derive_unique _ _ _ HD) in EU.
      apply Rmult_eq_reg_l with (3 * (r * g) / (K * (af d0 * (af d0 * af d0)))).
      * rewrite Rmult_0_r. transitivity (r * g * mp / (K * (af d0 * (af d0 * af d0))) - (-2 * (r * g) * mp / (K * (af d0 * (af d0 * af d0))))).
        field; lra. rewrite EU. ring.
      * unfold Rdiv. apply Rmult_integral_contrapositive_currified. lra. apply Rinv_neq_0_compat. lra.
    + rewrite HD in *. replace (r * g * 0 / (K * (af d0 * (af d0 * af d0)))) with (-2 * (r * g) * 0 / (K * (af d0 * (af d0 * af d0)))) by (field; lra). exact Dst.
  - rewrite J3, Ems'. assert (Ms : o_m_star o = K * (af d0 * (af d0 * af d0)) - mp) by lra. rewrite Ms. split; intros HD.
    + assert (EU := is_derive_unique _ _ _ Dpl). rewrite (is_derive_unique _ _ _ HD) in EU.
      apply Rmult_eq_reg_l with (3 * (r * g) / (K * (af d0 * (af d0 * af d0)))).
      * rewrite Rmult_0_r. transitivity (- (r * g) * (K * (af d0 * (af d0 * af d0)) - mp) / (K * (af d0 * (af d0 * af d0)))
           - (- (r * g) - 2 * (r * g) * mp / (K * (af d0 * (af d0 * af d0))))).
        field; lra. rewrite EU. ring.
      * unfold Rdiv. apply Rmult_integral_contrapositive_currified. lra. apply Rinv_neq_0_compat. lra.
    + rewrite HD in *.
      replace (- (r * g) * (K * (af d0 * (af d0 * af d0)) - 0) / (K * (af d0 * (af d0 * af d0))))
        with (- (r * g) - 2 * (r * g) * 0 / (K * (af d0 * (af d0 * af d0)))) by (field; lra). exact Dpl.
Qed.

Lemma jac_b x o b0 : kep_init k (set_incl x (Some b0) None) = Ok o ->
  (ka_duration x = None \/ ka_ecc x <> None) ->
  is_derive (fun b => attr (kep_init k (set_incl x (Some b) None)) (@o_cos_incl R)) b0 (o_dcosidb o).
Proof.
  intros H Hd.
  assert (Fam : forall b, attr (kep_init k (set_incl x (Some b) None)) (@o_cos_incl R) = o_dcosidb o * b).
  { intros b'. revert H. unfold kep_init, kep_units, kep_duration, kep_omega, kep_incl, kep_times. kprojx.
    intros H. inv_bind H. destruct v. cbn [rbind].
    assert (Dn : match ka_ecc x, ka_duration x with
      | None, Some dur => false | _, _ => true end = true).
    { destruct Hd as [-> | Hd]; destruct (ka_ecc x); auto; try congruence. }
    destruct (ka_ecc x), (ka_duration x); try discriminate Dn; cbn [rbind is_none negb orb] in *;
    destruct (consistent_inputs _ _ _ _ _ _ _) as [[[[[[A P] RHO] RS] MS] MP]|]; try discriminate H; cbn [rbind] in *.
    all: destruct (ka_t0 x), (ka_tper x); cbn [rbind] in *; try discriminate H; try (inv_bind H; cbn [rbind] in *); try discriminate H; apply Ok_inj in H; subst o; reflexivity. }
  eapply is_derive_ext. intros t. symmetry. apply Fam.
  auto_derive; auto. ring.
Qed.
End S.
