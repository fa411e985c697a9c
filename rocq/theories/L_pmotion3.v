(** * Proofs: true anomaly, circular orbits, exchange of the bodies *)
From Coq Require Import Reals Lra Lia ZArith Bool List.
From Coquelicot Require Import Coquelicot.
From Verif Require Import Num CoreOps Inst M_units M_kepler L_real L_kepop Spec_orbit Spec_params L_orbit L_motion L_pmotion.
Open Scope R_scope.

(** ** C21 *)
Lemma gta_cos_sin (M e : R) : 0 <= e < 1 ->
  cos (get_true_anomaly M e) = kepler_cosf M e /\ sin (get_true_anomaly M e) = kepler_sinf M e.
Proof.
  intros He. unfold get_true_anomaly. simR.
  apply unit_vector_angle. rewrite Rplus_comm. apply kepler_unit. rewrite Rabs_pos_eq; lra.
Qed.

Lemma gta_range (M e : R) : - PI < get_true_anomaly M e <= PI.
Proof. unfold get_true_anomaly. simR. apply Ratan2_bounds. Qed.

Lemma gta_E (M e E : R) : 0 <= e < 1 -> E - e * sin E = M ->
  cos (get_true_anomaly M e) = (cos E - e) / (1 - e * cos E) /\
  sin (get_true_anomaly M e) = sqrt (1 - e * e) * sin E / (1 - e * cos E).
Proof.
  intros He HE. destruct (gta_cos_sin M e He) as [-> ->].
  unfold kepler_cosf, kepler_sinf. rewrite (ecc_anom_unique M e E); auto. rewrite Rabs_pos_eq; lra.
Qed.

Lemma tan_half y : 1 + cos y <> 0 -> tan (y / 2) = sin y / (1 + cos y).
Proof.
  intros H. replace y with (2 * (y / 2)) in H by field.
  assert (E : y = 2 * (y / 2)) by field. rewrite E at 2 3.
  rewrite sin_2a, cos_2a_cos. rewrite cos_2a_cos in H. unfold tan.
  assert (cos (y / 2) <> 0). { intros h. rewrite h in H. apply H. ring. }
  field; auto.
Qed.

Lemma gta_tan (M e E : R) : 0 <= e < 1 -> E - e * sin E = M -> cos (E / 2) <> 0 ->
  tan (get_true_anomaly M e / 2) = sqrt ((1 + e) / (1 - e)) * tan (E / 2).
Proof.
  intros He HE Hc. destruct (gta_E M e E He HE) as [Cf Sf].
  assert (HD : 0 < 1 - e * cos E) by (apply ecos_pos; rewrite Rabs_pos_eq; lra).
  assert (HcE : 0 < 1 + cos E).
  { assert (E0 : E = 2 * (E / 2)) by field. rewrite E0, cos_2a_cos. nra. }
  assert (H1 : 1 + cos (get_true_anomaly M e) = (1 - e) * (1 + cos E) / (1 - e * cos E)).
  { rewrite Cf. field. lra. }
  rewrite tan_half. 2:{ rewrite H1. apply Rgt_not_eq. apply Rdiv_lt_0_compat; auto. nra. }
  rewrite (tan_half E) by lra. rewrite H1, Sf.
  replace ((1 + e) / (1 - e)) with ((1 - e * e) / ((1 - e) * (1 - e))) by (field; lra).
  rewrite sqrt_div_alt by nra. rewrite sqrt_square by lra. field. repeat split; lra.
Qed.

Lemma gta_unique_E (M e : R) : 0 <= e < 1 -> exists! E, E - e * sin E = M.
Proof.
  intros He. assert (Rabs e < 1) by (rewrite Rabs_pos_eq; lra).
  exists (ecc_anom M e). split. { apply ecc_anom_spec; auto. }
  intros E' H'. apply ecc_anom_unique; auto.
Qed.

Lemma gta_periodic (M e : R) (j : Z) : 0 <= e < 1 ->
  get_true_anomaly (M + IZR j * (2 * PI)) e = get_true_anomaly M e.
Proof.
  intros He. assert (Rabs e < 1) by (rewrite Rabs_pos_eq; lra).
  unfold get_true_anomaly. simR. rewrite kepler_sinf_period, kepler_cosf_period by auto. reflexivity.
Qed.

Lemma gta_odd (M e : R) : 0 <= e < 1 -> get_true_anomaly M e <> PI ->
  get_true_anomaly (- M) e = - get_true_anomaly M e.
Proof.
  intros He Hpi. assert (Ha : Rabs e < 1) by (rewrite Rabs_pos_eq; lra).
  assert (B := gta_range M e). assert (B' := gta_range (- M) e).
  apply sincos_inj_PI; try lra.
  - rewrite sin_neg. destruct (gta_cos_sin M e He) as [_ ->]. destruct (gta_cos_sin (- M) e He) as [_ ->].
    unfold kepler_sinf. rewrite ecc_anom_odd, sin_neg, cos_neg by auto. unfold Rdiv; ring.
  - rewrite cos_neg. destruct (gta_cos_sin M e He) as [-> _]. destruct (gta_cos_sin (- M) e He) as [-> _].
    unfold kepler_cosf. rewrite ecc_anom_odd, cos_neg by auto. reflexivity.
Qed.

Lemma gta_circ (M : R) : exists j : Z, get_true_anomaly M 0 = M + IZR j * (2 * PI).
Proof.
  apply sincos_inj; destruct (gta_cos_sin M 0 ltac:(lra)) as [H1 H2].
  - rewrite H2. apply kepler_sinf_0.
  - rewrite H1. apply kepler_cosf_0.
Qed.

(** ** C22 *)
Lemma M0_ecc0 (w : R) : sin w <> -1 ->
  exists j : Z, kep_M0 {| e_ecc := 0; e_omega := w; e_cosw := cos w; e_sinw := sin w |}
                = PI / 2 - w + IZR j * (2 * PI).
Proof.
  intros Hs. apply sincos_inj; unfold kep_M0; simR; cbn.
  - rewrite sin_shift.
    destruct (conj_E0 0 (cos w) (sin w)) as [H1 H2]; [rewrite Rabs_R0; lra|generalize (sin2_cos2' w); lra|auto|].
    rewrite Rmult_0_l, Rminus_0_r. rewrite H2. rewrite Rmult_0_l, Rmult_0_l, Rminus_0_r, sqrt_1. field.
  - rewrite cos_shift.
    destruct (conj_E0 0 (cos w) (sin w)) as [H1 H2]; [rewrite Rabs_R0; lra|generalize (sin2_cos2' w); lra|auto|].
    rewrite Rmult_0_l, Rminus_0_r. rewrite H1. field.
Qed.

Ltac kproj := cbn [with_ecc ka_period ka_a ka_t0 ka_tper ka_incl ka_b ka_duration ka_ecc ka_omega
  ka_sin_omega ka_cos_omega ka_Omega ka_m_planet ka_m_star ka_r_star ka_rho_star ka_ror
  ka_m_planet_units ka_rho_star_units].

Section C22.
Variable k : consts.
Hypothesis kok : consts_ok k.
Variable x : kargs R.
Variable o : orbit R.
Hypothesis Hinit : kep_init k x = Ok o.
Hypothesis Hph : physical o.
Variable w : R.
Hypothesis Hw : sin w <> -1.
Hypothesis Hecc : ka_ecc x = None.
Hypothesis Hdur : ka_duration x = None.
Hypothesis Htper : ka_tper x = None.

Lemma ecc0_init : exists o', kep_init k (with_ecc x 0 w) = Ok o' /\
  o_a o' = o_a o /\ o_period o' = o_period o /\ o_rho_star o' = o_rho_star o /\
  o_r_star o' = o_r_star o /\ o_m_star o' = o_m_star o /\ o_m_planet o' = o_m_planet o /\
  o_cos_incl o' = o_cos_incl o /\ o_incl o' = o_incl o /\ o_b o' = o_b o /\
  o_t0 o' = o_t0 o /\ o_Omega o' = o_Omega o /\
  o_ecc o' = Some {| e_ecc := 0; e_omega := w; e_cosw := cos w; e_sinw := sin w |} /\ o_ecc o = None.
Proof.
  assert (Ha := ph_a _ Hph).
  revert Hinit. unfold kep_init.
  assert (Eu : kep_units (with_ecc x 0 w) = kep_units x) by reflexivity. rewrite Eu.
  destruct (kep_units x) as [[mpl rho]|]; [|discriminate]. cbn [rbind].
  unfold kep_duration, kep_omega, kep_incl, kep_times. kproj. rewrite Hecc, Hdur, Htper. cbn [rbind].
  destruct (consistent_inputs k (ka_a x) (ka_period x) rho (ka_r_star x) (ka_m_star x) mpl)
    as [[[[[[A P] RHO] RS] MS] MP]|]; [|discriminate]. cbn [rbind is_none negb andb].
  simR. cbn [e_ecc e_sinw].
  replace ((1 + 0 * sin w) / (1 - 0 * 0)) with 1 by field.
  intros HH.
  destruct (ka_b x) as [b0|] eqn:Eb; [|destruct (ka_incl x) as [i0|] eqn:Ei].
  - destruct (negb (is_none (ka_incl x)) || false); [discriminate|]. cbn [rbind] in *.
    destruct (ka_t0 x); cbn [rbind] in *; inversion HH; subst o; eexists; (split; [reflexivity|]); cbn; repeat split; reflexivity.
  - cbn [rbind] in *.
    destruct (ka_t0 x); cbn [rbind] in *; inversion HH; subst o; eexists; (split; [reflexivity|]); cbn; repeat split; reflexivity.
  - cbn [rbind] in *.
    destruct (ka_t0 x); cbn [rbind] in *; inversion HH; subst o; eexists; (split; [reflexivity|]); cbn; repeat split; reflexivity.
Qed.
End C22.

Lemma same_motion_lin (k : consts) x x' o o' : consts_ok k ->
  kep_init k x = Ok o -> kep_init k x' = Ok o' -> physical o -> physical o' ->
  o_a o' = o_a o -> o_m_star o' = o_m_star o -> o_m_planet o' = o_m_planet o ->
  (forall t c, lin o c t = lin o' c t /\ vlin o c t = vlin o' c t /\ alin o c t = alin o' c t) ->
  same_motion k o o'.
Proof.
  intros kok Hi Hi' Hp Hp' Ea Es Ep H t.
  assert (Em : o_m_total o' = o_m_total o).
  { rewrite (of_mtot _ _ _ (kep_init_facts k kok x o Hi Hp)), (of_mtot _ _ _ (kep_init_facts k kok x' o' Hi' Hp')). congruence. }
  assert (Eas : o_a_star o' = o_a_star o).
  { rewrite (of_a_star _ _ _ (kep_init_facts k kok x o Hi Hp)), (of_a_star _ _ _ (kep_init_facts k kok x' o' Hi' Hp')). congruence. }
  assert (Eap : o_a_planet o' = o_a_planet o).
  { rewrite (of_a_planet _ _ _ (kep_init_facts k kok x o Hi Hp)), (of_a_planet _ _ _ (kep_init_facts k kok x' o' Hi' Hp')). congruence. }
  assert (Vs : get_star_velocity o (kep_warp o) t = get_star_velocity o' (kep_warp o') t).
  { rewrite (star_vel k kok x o Hi Hp), (star_vel k kok x' o' Hi' Hp'), Eas. apply H. }
  split. { intros par. rewrite (planet_pos k kok x o Hi Hp), (planet_pos k kok x' o' Hi' Hp'), Eap. apply H. }
  split. { intros par. rewrite (star_pos k kok x o Hi Hp), (star_pos k kok x' o' Hi' Hp'), Eas. apply H. }
  split. { intros par. rewrite (rel_pos k kok x o Hi Hp), (rel_pos k kok x' o' Hi' Hp'), Ea. apply H. }
  split. { rewrite (planet_vel k kok x o Hi Hp), (planet_vel k kok x' o' Hi' Hp'), Eap. apply H. }
  split; [exact Vs|].
  split. { rewrite (rel_vel k kok x o Hi Hp), (rel_vel k kok x' o' Hi' Hp'), Ea. apply H. }
  split. { intros Hm. rewrite (planet_acc k kok x o Hi Hp), (planet_acc k kok x' o' Hi' Hp'), Eap by (auto; lra). apply H. }
  split. { intros Hm. rewrite (star_acc k kok x o Hi Hp), (star_acc k kok x' o' Hi' Hp'), Eas by (auto; lra). apply H. }
  split. { rewrite (rel_acc k kok x o Hi Hp), (rel_acc k kok x' o' Hi' Hp'), Ea. apply H. }
  intros u. unfold get_radial_velocity. rewrite Vs. reflexivity.
Qed.

Lemma ecc0_motion (k : consts) x o w : consts_ok k -> kep_init k x = Ok o -> physical o ->
  sin w <> -1 -> ka_ecc x = None -> ka_duration x = None -> ka_tper x = None ->
  exists o', kep_init k (with_ecc x 0 w) = Ok o' /\ o_t0 o' = o_t0 o /\ same_motion k o o'.
Proof.
  intros kok Hi Hp Hw He Hd Ht.
  destruct (ecc0_init k x o Hi Hp w He Hd Ht)
    as (o' & Hi' & Ea & EP & Erho & Er & Es & Ep & Eci & Einc & Eb & Et0 & EOm & Ee' & Ee).
  assert (Hp' : physical o').
  { destruct Hp. constructor; rewrite ?Ea, ?EP, ?Er, ?Es, ?Ep, ?Eci; auto.
    - intros d Hd'. rewrite Ee' in Hd'. inversion Hd'; subst; cbn. lra.
    - intros d Hd'. rewrite Ee' in Hd'. inversion Hd'; subst; cbn. generalize (sin2_cos2' w); lra. }
  exists o'. split; auto. split; auto.
  assert (F := kep_init_facts k kok x o Hi Hp). assert (F' := kep_init_facts k kok _ o' Hi' Hp').
  apply (same_motion_lin k x (with_ecc x 0 w)); auto.
  assert (En : o_n o' = o_n o) by (rewrite (of_n _ _ _ F), (of_n _ _ _ F'), EP; reflexivity).
  assert (Hn := n_pos k kok x o Hi Hp).
  assert (e0 : eo o = 0) by (unfold eo, ecc_of; rewrite Ee; auto).
  assert (e0' : eo o' = 0) by (unfold eo, ecc_of; rewrite Ee'; auto).
  assert (q0 : qo o = 1) by (unfold qo; rewrite e0, Rmult_0_l, Rminus_0_r; apply sqrt_1).
  assert (q0' : qo o' = 1) by (unfold qo; rewrite e0', Rmult_0_l, Rminus_0_r; apply sqrt_1).
  assert (Esi : o_sin_incl o' = o_sin_incl o) by (rewrite (of_sini _ _ _ F), (of_sini _ _ _ F'), Einc; reflexivity).
  destruct (M0_ecc0 w Hw) as [j Hj].
  assert (EM : forall t, Mof o t = Mof o' t + w + IZR (- j) * (2 * PI)).
  { intros t. unfold Mof. rewrite En.
    generalize (of_t0 _ _ _ F) (of_t0 _ _ _ F'). rewrite Et0, En.
    rewrite (of_M0_circ _ _ _ F Ee), (of_M0_ecc _ _ _ F' _ Ee'), Hj. intros T T'. rewrite opp_IZR.
    assert (Tn : o_tper o * o_n o = (o_t0 o) * o_n o - PI / 2).
    { rewrite T. field. lra. }
    assert (Tn' : o_tper o' * o_n o = (o_t0 o) * o_n o - (PI / 2 - w + IZR j * (2 * PI))).
    { rewrite T'. field. lra. }
    rewrite !Rmult_minus_distr_r. rewrite Tn, Tn'. ring. }
  assert (EE : forall t, Eof o t = Mof o t) by (intros; unfold Eof; rewrite e0; apply ecc_anom_0).
  assert (EE' : forall t, Eof o' t = Mof o' t) by (intros; unfold Eof; rewrite e0'; apply ecc_anom_0).
  assert (Ec : forall t, cos (Eof o t) = cos (Eof o' t) * cos w - sin (Eof o' t) * sin w).
  { intros t. rewrite EE, EE', EM, cos_sub_2PIk, cos_plus. reflexivity. }
  assert (Esn : forall t, sin (Eof o t) = sin (Eof o' t) * cos w + cos (Eof o' t) * sin w).
  { intros t. rewrite EE, EE', EM, sin_sub_2PIk, sin_plus. reflexivity. }
  assert (HP : Pv o' = vadd (vscale (cos w) (Pv o)) (vscale (sin w) (Qv o))).
  { unfold Pv, Qv, cosO, sinO, cosw_of, sinw_of. vcrush. rewrite Ee, Ee', EOm, Eci, Esi. cbn. apply vec_eq; ring. }
  assert (HQ : Qv o' = vadd (vscale (- sin w) (Pv o)) (vscale (cos w) (Qv o))).
  { unfold Pv, Qv, cosO, sinO, cosw_of, sinw_of. vcrush. rewrite Ee, Ee', EOm, Eci, Esi. cbn. apply vec_eq; ring. }
  intros t c. unfold lin, vlin, alin, Dof, px, py. rewrite En, q0, q0', e0, e0', Ec, Esn, HP, HQ.
  vcrush. unfold Rdiv. repeat rewrite Rmult_0_l. rewrite !Rminus_0_r. repeat rewrite Rmult_1_l. repeat rewrite Rinv_1.
  split; [|split]; apply vec_eq; try ring; field.
Qed.

(** ** C23 *)
Lemma flip_init (k : consts) x o r : consts_ok k -> kep_init k x = Ok o -> physical o -> 0 < r ->
  exists o', flip k o r = Ok o' /\ physical o' /\
  o_a o' = o_a o /\ o_period o' = o_period o /\ o_r_star o' = r /\
  o_m_star o' = o_m_planet o /\ o_m_planet o' = o_m_star o /\
  o_incl o' = o_incl o /\ o_cos_incl o' = o_cos_incl o /\
  match o_Omega o with None => o_Omega o' = None
     | Some w => o_Omega o' = Some {| O_Omega := O_Omega w; O_cos := cos (O_Omega w); O_sin := sin (O_Omega w) |} end /\
  match o_ecc o with
  | None => o_ecc o' = None /\ o_tper o' = o_tper o + 0.5 * o_period o
  | Some d => o_tper o' = o_tper o /\
      o_ecc o' = Some {| e_ecc := e_ecc d; e_omega := e_omega d - PI;
                         e_cosw := cos (e_omega d - PI); e_sinw := sin (e_omega d - PI) |}
  end.
Proof.
  intros kok Hi Hp Hr. assert (F := kep_init_facts k kok x o Hi Hp).
  assert (HG := ok_G _ kok). assert (Hpi := PI_pos).
  assert (Ha := ph_a _ Hp). assert (HP := ph_period _ Hp). assert (Hm := ph_m_total _ Hp).
  assert (EA : Rpowr (G_grav k * (o_m_planet o + o_m_star o) * (o_period o * o_period o) / (4 * (PI * PI))) (1 / 3) = o_a o).
  { replace (G_grav k * (o_m_planet o + o_m_star o) * (o_period o * o_period o) / (4 * (PI * PI)))
      with (o_a o * o_a o * o_a o). apply Rpowr_cube; auto.
    generalize (of_kepler3 _ _ _ F). rewrite (of_mtot _ _ _ F). intros E.
    replace (o_m_planet o + o_m_star o) with (o_m_star o + o_m_planet o) by ring. rewrite E. field. lra. }
  unfold flip, kep_init.
  assert (EU : forall xx, xx = flip_args o r -> kep_units xx = Ok (Some (plain (o_m_star o)), None)).
  { intros xx ->. unfold flip_args. destruct (o_ecc o); reflexivity. }
  rewrite (EU _ eq_refl). cbn [rbind].
  assert (ED : kep_duration (flip_args o r) = Ok (None, Some (plain r), None, None)).
  { unfold kep_duration, flip_args. destruct (o_ecc o); reflexivity. }
  rewrite ED. cbn [rbind].
  assert (EC : consistent_inputs k None (ka_period (flip_args o r)) None (Some (plain r)) (ka_m_star (flip_args o r))
       (Some (plain (o_m_star o))) = Ok (o_a o, o_period o, 3 * o_m_planet o / (4 * PI * (r * (r * r))) * gcc_per_sun k, r, o_m_planet o, o_m_star o)).
  { unfold flip_args. destruct (o_ecc o); unfold consistent_inputs; cbn; rewrite EA; reflexivity. }
  rewrite EC. cbn [rbind].
  assert (Ew : kep_omega (flip_args o r) = Ok (match o_ecc o with None => None | Some d =>
     Some {| e_ecc := e_ecc d; e_omega := e_omega d - PI;
                         e_cosw := cos (e_omega d - PI); e_sinw := sin (e_omega d - PI) |} end)).
  { unfold kep_omega, flip_args. destruct (o_ecc o); reflexivity. }
  rewrite Ew. cbn [rbind].
  unfold kep_incl.
  assert (ka_b (flip_args o r) = None) as -> by (unfold flip_args; destruct (o_ecc o); reflexivity).
  assert (ka_incl (flip_args o r) = Some (o_incl o)) as -> by (unfold flip_args; destruct (o_ecc o); reflexivity).
  cbn [is_none negb rbind].
  unfold kep_times.
  assert (ka_t0 (flip_args o r) = None) as -> by (unfold flip_args; destruct (o_ecc o); reflexivity).
  assert (ka_tper (flip_args o r) = Some (match o_ecc o with None => o_tper o + 0.5 * o_period o | Some _ => o_tper o end))
    as -> by (unfold flip_args; destruct (o_ecc o); reflexivity).
  assert (ka_Omega (flip_args o r) = option_map O_Omega (o_Omega o)) as ->
    by (unfold flip_args; destruct (o_ecc o); reflexivity).
  cbn [rbind]. eexists; split; [reflexivity|].
  split; [|cbn; repeat split; auto].
  - destruct Hp. constructor; cbn; simR; auto; try lra.
    + rewrite <- (of_cosi _ _ _ F). auto.
    + intros d. destruct (o_ecc o) as [d0|]; [|discriminate]. intros E; inversion E; cbn. auto.
    + intros d. destruct (o_ecc o) as [d0|]; [|discriminate]. intros E; inversion E; cbn.
      generalize (sin2_cos2' (e_omega d0 - PI)); lra.
  - simR. symmetry. apply (of_cosi _ _ _ F).
  - destruct (o_Omega o); cbn; reflexivity.
  - destruct (o_ecc o); auto.
Qed.

Lemma flip_lin (k : consts) x o r o' : consts_ok k -> kep_init k x = Ok o -> physical o -> 0 < r ->
  flip k o r = Ok o' -> forall t c,
  lin o' c t = lin o (- c) t /\ vlin o' c t = vlin o (- c) t /\ alin o' c t = alin o (- c) t.
Proof.
  intros kok Hi Hp Hr Hf t c.
  destruct (flip_init k x o r kok Hi Hp Hr) as
    (o'' & Hf'' & Hp' & Ea & EP & Er & Es & Ep & Einc & Eci & EOm & Eecc).
  rewrite Hf in Hf''. inversion Hf''; subst o''; clear Hf''.
  assert (F := kep_init_facts k kok x o Hi Hp).
  assert (F' := kep_init_facts k kok _ o' Hf Hp').
  assert (En : o_n o' = o_n o) by (rewrite (of_n _ _ _ F), (of_n _ _ _ F'), EP; reflexivity).
  assert (Esi : o_sin_incl o' = o_sin_incl o) by (rewrite (of_sini _ _ _ F), (of_sini _ _ _ F'), Einc; reflexivity).
  assert (HO : cosO o' = cosO o /\ sinO o' = sinO o).
  { unfold cosO, sinO. generalize (of_Omega _ _ _ F). destruct (o_Omega o) as [w|]; rewrite EOm; cbn; auto.
    intros H. destruct (H w eq_refl). auto. }
  destruct HO as [HcO HsO].
  destruct (o_ecc o) as [d|] eqn:E.
  - destruct Eecc as [Et Ee'].
    assert (eo o' = eo o) as EE by (unfold eo, ecc_of; rewrite E, Ee'; auto).
    destruct (of_omega _ _ _ F _ E) as [Ecw Esw].
    assert (cosw_of o' = - cosw_of o) as Hc.
    { unfold cosw_of. rewrite E, Ee'. cbn. rewrite Ecw, cos_minus, cos_PI, sin_PI. ring. }
    assert (sinw_of o' = - sinw_of o) as Hs.
    { unfold sinw_of. rewrite E, Ee'. cbn. rewrite Esw, sin_minus, cos_PI, sin_PI. ring. }
    unfold lin, vlin, alin, px, py, Dof, Eof, Mof, qo. rewrite EE, Et, En. fold (Mof o t). fold (Eof o t).
    fold (qo o). unfold Pv, Qv. rewrite Hc, Hs, HcO, HsO, Eci, Esi.
    vcrush. unfold Rdiv. split; [|split]; apply vec_eq; ring.
  - destruct Eecc as [Ee' Et].
    assert (e0 : eo o = 0) by (unfold eo, ecc_of; rewrite E; auto).
    assert (e0' : eo o' = 0) by (unfold eo, ecc_of; rewrite Ee'; auto).
    assert (EM : Mof o' t = Mof o t - PI).
    { unfold Mof. rewrite En, Et, (of_n _ _ _ F). replace 0.5 with (/ 2) by lra. field. generalize (ph_period _ Hp); lra. }
    assert (Ec : cos (Eof o' t) = - cos (Eof o t)).
    { unfold Eof. rewrite e0, e0', !ecc_anom_0, EM, cos_minus, cos_PI, sin_PI. ring. }
    assert (Esn : sin (Eof o' t) = - sin (Eof o t)).
    { unfold Eof. rewrite e0, e0', !ecc_anom_0, EM, sin_minus, cos_PI, sin_PI. ring. }
    unfold lin, vlin, alin, px, py, Dof, qo. rewrite e0, e0', En, Ec, Esn.
    unfold Pv, Qv, cosw_of, sinw_of. rewrite E, Ee', HcO, HsO, Eci, Esi.
    vcrush. unfold Rdiv. repeat rewrite Rmult_0_l. rewrite !Rminus_0_r.
    split; [|split]; apply vec_eq; ring.
Qed.

Lemma flip_motion (k : consts) x o r o' : consts_ok k -> kep_init k x = Ok o -> physical o -> 0 < r ->
  flip k o r = Ok o' -> forall t,
  (forall par, get_planet_position k o' (kep_warp o') t par false = get_star_position k o (kep_warp o) t par false) /\
  (forall par, get_star_position k o' (kep_warp o') t par false = get_planet_position k o (kep_warp o) t par false) /\
  get_planet_velocity o' (kep_warp o') t = get_star_velocity o (kep_warp o) t /\
  get_star_velocity o' (kep_warp o') t = get_planet_velocity o (kep_warp o) t.
Proof.
  intros kok Hi Hp Hr Hf t.
  assert (L := flip_lin k x o r o' kok Hi Hp Hr Hf t).
  destruct (flip_init k x o r kok Hi Hp Hr) as
    (o'' & Hf'' & Hp' & Ea & EP & Er & Es & Ep & _).
  rewrite Hf in Hf''. inversion Hf''; subst o''; clear Hf''.
  assert (F := kep_init_facts k kok x o Hi Hp).
  assert (F' := kep_init_facts k kok _ o' Hf Hp').
  assert (Hm := mtot_pos k kok x o Hi Hp).
  assert (Em : o_m_total o' = o_m_total o) by (rewrite (of_mtot _ _ _ F), (of_mtot _ _ _ F'), Es, Ep; ring).
  assert (E1 : o_a_planet o' = - o_a_star o).
  { rewrite (of_a_planet _ _ _ F'), (of_a_star _ _ _ F), Em, Ea, Es. field. lra. }
  assert (E2 : o_a_star o' = - o_a_planet o).
  { rewrite (of_a_star _ _ _ F'), (of_a_planet _ _ _ F), Em, Ea, Ep. field. lra. }
  split; [|split; [|split]].
  - intros par. rewrite (planet_pos k kok _ o' Hf Hp'), (star_pos k kok x o Hi Hp), E1.
    destruct (L (- o_a_star o * plxf k par)) as [-> _]. f_equal. ring.
  - intros par. rewrite (star_pos k kok _ o' Hf Hp'), (planet_pos k kok x o Hi Hp), E2.
    destruct (L (- o_a_planet o * plxf k par)) as [-> _]. f_equal. ring.
  - rewrite (planet_vel k kok _ o' Hf Hp'), (star_vel k kok x o Hi Hp), E1.
    destruct (L (- o_a_star o)) as (_ & -> & _). f_equal. ring.
  - rewrite (star_vel k kok _ o' Hf Hp'), (planet_vel k kok x o Hi Hp), E2.
    destruct (L (- o_a_planet o)) as (_ & -> & _). f_equal. ring.
Qed.

Lemma flip_twice (k : consts) x o r o' r' : consts_ok k -> kep_init k x = Ok o -> physical o -> 0 < r -> 0 < r' ->
  flip k o r = Ok o' -> exists o2, flip k o' r' = Ok o2 /\ o_r_star o2 = r' /\ same_motion k o o2.
Proof.
  intros kok Hi Hp Hr Hr' Hf.
  assert (L := flip_lin k x o r o' kok Hi Hp Hr Hf).
  destruct (flip_init k x o r kok Hi Hp Hr) as
    (o'' & Hf'' & Hp' & Ea & EP & Er & Es & Ep & _).
  rewrite Hf in Hf''. inversion Hf''; subst o''; clear Hf''.
  destruct (flip_init k _ o' r' kok Hf Hp' Hr') as
    (o2 & Hf2 & Hp2 & Ea2 & EP2 & Er2 & Es2 & Ep2 & _).
  assert (L2 := flip_lin k _ o' r' o2 kok Hf Hp' Hr' Hf2).
  exists o2. split; auto. split; auto.
  eapply same_motion_lin; eauto; try congruence.
  intros t c. destruct (L2 t c) as (-> & -> & ->). destruct (L t (- c)) as (-> & -> & ->).
  rewrite Ropp_involutive. auto.
Qed.
