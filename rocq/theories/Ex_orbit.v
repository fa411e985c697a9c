(** * Concrete orbits meeting the hypotheses of the theorems *)
From Coq Require Import Reals Lra Bool List String.
From Coquelicot Require Import Coquelicot.
From Verif Require Import Num CoreOps Inst M_units M_kepler Spec_orbit Spec_params L_real L_orbit L_kwargs.
Open Scope R_scope.

Definition ek := fallback_consts.

(** eccentric, inclined, massive planet with a node, given by period and t0 *)
Definition ex_ecc_args : kargs R :=
  {| ka_period := Some (plain 10); ka_a := None; ka_t0 := Some 2; ka_tper := None;
     ka_incl := Some (3 / 2); ka_b := None; ka_duration := None; ka_ecc := Some (3 / 10);
     ka_omega := Some 1; ka_sin_omega := None; ka_cos_omega := None; ka_Omega := Some (7 / 10);
     ka_m_planet := Some (plain (1 / 2)); ka_m_star := None; ka_r_star := None;
     ka_rho_star := None; ka_ror := None; ka_m_planet_units := None; ka_rho_star_units := None |}.
(** circular, given by period and impact parameter, solar star *)
Definition ex_circ_args : kargs R :=
  {| ka_period := Some (plain 10); ka_a := None; ka_t0 := Some 2; ka_tper := None;
     ka_incl := None; ka_b := Some 0; ka_duration := None; ka_ecc := None;
     ka_omega := None; ka_sin_omega := None; ka_cos_omega := None; ka_Omega := None;
     ka_m_planet := Some (plain (1 / 2)); ka_m_star := None; ka_r_star := None;
     ka_rho_star := None; ka_ror := None; ka_m_planet_units := None; ka_rho_star_units := None |}.
(** circular, from a duration: the planet needs period/6 to cross the star *)
Definition ex_dur_args : kargs R :=
  {| ka_period := Some (plain 6); ka_a := None; ka_t0 := Some 2; ka_tper := None;
     ka_incl := None; ka_b := Some (1 / 2); ka_duration := Some (plain 1); ka_ecc := None;
     ka_omega := None; ka_sin_omega := None; ka_cos_omega := None; ka_Omega := None;
     ka_m_planet := Some (plain 0); ka_m_star := None; ka_r_star := Some (plain 2);
     ka_rho_star := None; ka_ror := Some (1 / 10); ka_m_planet_units := None; ka_rho_star_units := None |}.
(** eccentric, from a duration *)
Definition ex_edur_args : kargs R :=
  {| ka_period := Some (plain 8); ka_a := Some (plain (3 / 2)); ka_t0 := None; ka_tper := None;
     ka_incl := None; ka_b := None; ka_duration := Some (plain 1); ka_ecc := Some (1 / 2);
     ka_omega := Some 0; ka_sin_omega := None; ka_cos_omega := None; ka_Omega := None;
     ka_m_planet := Some (plain 0); ka_m_star := None; ka_r_star := Some (plain 1);
     ka_rho_star := None; ka_ror := None; ka_m_planet_units := None; ka_rho_star_units := None |}.

Lemma ek_ok : consts_ok ek.
Proof. exact fallback_ok. Qed.

Lemma ex_ecc : exists o, kep_init ek ex_ecc_args = Ok o /\ physical o /\
  0 < o_m_planet o /\ 0 < o_m_star o /\ ecc_of o = 3 / 10 /\ sinw_of o = sin 1 /\ o_t0 o = 2 /\ o_period o = 10.
Proof.
  eexists. split; [reflexivity|]. split; [|cbn; repeat split; try lra].
  constructor; cbn; try lra.
  - apply Rpowr_pos. assert (H := PI_RGT_0). apply Rdiv_lt_0_compat; nra.
  - apply COS_bound.
  - intros d Hd. inversion Hd. cbn. lra.
  - intros d Hd. inversion Hd. cbn. generalize (sin2_cos2' 1). lra.
Qed.

Lemma ex_circ : exists o, kep_init ek ex_circ_args = Ok o /\ physical o /\
  0 < o_m_planet o /\ 0 < o_m_star o /\ o_ecc o = None /\ o_b o = 0 /\ o_period o = 10 /\ o_t0 o = 2 /\ o_r_star o = 1 /\ 1 < o_a o /\ o_sin_incl o = 1.
Proof.
  eexists. split; [reflexivity|]. assert (H := PI_RGT_0). assert (H4 := PI_4).
  split; [|cbn; repeat split; try lra].
  - constructor; cbn; try lra.
    + apply Rpowr_pos. apply Rdiv_lt_0_compat; [lra|]. assert (0 < PI * PI) by nra. lra.
    + discriminate. 
    + discriminate.
  - set (X := 2942.2062175044193 * (1 + 1 / 2) * (10 * 10) / (4 * (PI * PI))).
    assert (HX : 1 < X). { unfold X. apply Rmult_lt_reg_r with (4 * (PI * PI)). assert (0 < PI * PI) by nra. lra. assert (0 < PI * PI <= 16) by nra. unfold Rdiv. rewrite Rmult_assoc, Rinv_l; lra. }
    unfold Rpowr. destruct (Rlt_dec 0 X); [|lra].
    assert (E0 := Rpower_O X ltac:(lra)). assert (E1 := Rpower_lt X 0 (1 / 3) HX ltac:(lra)). lra.
  - simR. rewrite Rmult_0_r, acos_0, sin_PI2. auto.
Qed.

Lemma ex_dur : exists o, kep_init ek ex_dur_args = Ok o /\ physical o.
Proof.
  eexists. split; [reflexivity|]. assert (H := PI_RGT_0). assert (H4 := PI_4).
  assert (Hs6 : sin (PI * 1 / 6) = 1 / 2) by (replace (PI * 1 / 6) with (PI / 6) by field; apply sin_PI6).
  assert (Hc6 : cos (PI * 1 / 6) * cos (PI * 1 / 6) = 3 / 4).
  { generalize (sin2_cos2' (PI * 1 / 6)). rewrite Hs6. lra. }
  assert (Ha : 1 <= sqrt ((1 + 1 / 10) * (1 + 1 / 10) - 1 / 2 * (1 / 2) * (cos (PI * 1 / 6) * cos (PI * 1 / 6)))).
  { rewrite Hc6. rewrite <- sqrt_1 at 1. apply sqrt_le_1_alt. lra. }
  assert (Ha' : sqrt ((1 + 1 / 10) * (1 + 1 / 10) - 1 / 2 * (1 / 2) * (cos (PI * 1 / 6) * cos (PI * 1 / 6))) * sqrt ((1 + 1 / 10) * (1 + 1 / 10) - 1 / 2 * (1 / 2) * (cos (PI * 1 / 6) * cos (PI * 1 / 6))) = 1.0225).
  { rewrite Hc6. rewrite sqrt_sqrt; lra. }
  set (S := sqrt _) in *.
  assert (Ea : 2 * (S / sin (PI * 1 / 6)) = 4 * S) by (rewrite Hs6; field).
  assert (Hpp : 0 < PI * PI <= 16) by nra.
  assert (Hm : 0 < 4 * PI * PI * (4 * S * (4 * S * (4 * S))) / (2942.2062175044193 * (6 * 6)) - 0).
  { rewrite Rminus_0_r. apply Rdiv_lt_0_compat; [|lra]. assert (0 < S * S * S) by nra.
    replace (4 * PI * PI * (4 * S * (4 * S * (4 * S)))) with (PI * PI * (256 * (S * S * S))) by ring. nra. }
  constructor; cbn; fold S; simR; rewrite ?Ea; try lra; try discriminate.
  assert (0 < 1 * 2 / (4 * S) * (1 / 2) <= 1).
  { split. apply Rmult_lt_0_compat; [|lra]. apply Rdiv_lt_0_compat; lra.
    apply Rmult_le_reg_r with (4 * S). lra. replace (1 * 2 / (4 * S) * (1 / 2) * (4 * S)) with 1 by (field; lra). lra. }
  lra.
Qed.

Lemma ex_edur : exists o, kep_init ek ex_edur_args = Ok o /\ physical o /\ o_m_planet o = 0 /\
  o_a o = 3 / 2 /\ o_r_star o = 1 /\ ecc_of o = 1 / 2 /\ sinw_of o = 0 /\ o_period o = 8 /\
  0 < o_b o < 1.
Proof.
  eexists. split; [reflexivity|]. assert (H := PI_RGT_0). assert (H4 := PI_4).
  set (F := (1 + 1 / 2 * sin 0) / (1 - 1 / 2 * (1 / 2))).
  assert (HF : F = 4 / 3) by (unfold F; rewrite sin_0; field).
  assert (Hc : sin (PI * 1 * F / 8) = 1 / 2) by (rewrite HF; replace (PI * 1 * (4 / 3) / 8) with (PI / 6) by field; apply sin_PI6).
  set (M := 4 * PI * PI * (3 / 2 * (3 / 2 * (3 / 2))) / (2942.2062175044193 * (8 * 8))).
  assert (HM : 0 < M). { unfold M. apply Rdiv_lt_0_compat; [|lra]. assert (0 < PI * PI) by nra. lra. }
  assert (Eap : - (3 / 2) * (M - 0) / (M - 0 + 0) / 1 = - (3 / 2)) by (field; lra).
  set (b := sqrt ((- (3 / 2) * (M - 0) / (M - 0 + 0) / 1 * (- (3 / 2) * (M - 0) / (M - 0 + 0) / 1) *
     (sin (PI * 1 * F / 8) * sin (PI * 1 * F / 8)) - 1) /
     (sin (PI * 1 * F / 8) * sin (PI * 1 * F / 8) * (1 / 2 * sin 0 * (1 / 2 * sin 0)) +
      2 * (sin (PI * 1 * F / 8) * sin (PI * 1 * F / 8)) * (1 / 2 * sin 0) + sin (PI * 1 * F / 8) * sin (PI * 1 * F / 8)
      - 1 / 2 * (1 / 2 * (1 / 2 * (1 / 2))) + 2 * (1 / 2 * (1 / 2)) - 1)) * (1 - 1 / 2 * (1 / 2))).
  assert (Hb : 0 < b < 1 /\ b * b = 63 / 80).
  { unfold b. rewrite Eap, Hc, sin_0.
    match goal with |- context [sqrt ?w] => replace w with (7 / 5) by field end.
    assert (Q := sqrt_sqrt (7 / 5) ltac:(lra)). assert (Q' := sqrt_pos (7 / 5)). split; [split|]; nra. }
  split; [|repeat split; cbn; try lra; try (exact sin_0); try (fold F; fold M; fold b; tauto)].
  constructor; cbn; fold F; fold M; fold b; try lra.
  - rewrite HF. nra.
  - intros d Hd. inversion Hd. cbn. lra.
  - intros d Hd. inversion Hd. cbn. generalize (sin2_cos2' 0). lra.
Qed.

(** omega = -90 degrees given through its exact sine and cosine *)
Lemma ex_behind : exists (x : kargs R) o,
  kep_init ek x = Ok o /\ physical o /\ sinw_of o = -1 /\ 0 < o_sin_incl o.
Proof.
  exists {| ka_period := Some (plain 10); ka_a := None; ka_t0 := Some 2; ka_tper := None;
     ka_incl := Some (3 / 2); ka_b := None; ka_duration := None; ka_ecc := Some (3 / 10);
     ka_omega := None; ka_sin_omega := Some (-1); ka_cos_omega := Some 0; ka_Omega := Some (7 / 10);
     ka_m_planet := Some (plain (1 / 2)); ka_m_star := None; ka_r_star := None;
     ka_rho_star := None; ka_ror := None; ka_m_planet_units := None; ka_rho_star_units := None |}.
  eexists. split; [reflexivity|]. split; [|cbn; repeat split; try lra].
  - constructor; cbn; try lra.
    + apply Rpowr_pos. assert (H := PI_RGT_0). apply Rdiv_lt_0_compat; nra.
    + apply COS_bound.
    + intros d Hd. inversion Hd. cbn. lra.
    + intros d Hd. inversion Hd. cbn. lra.
  - apply sin_gt_0; [lra|]. generalize PI2_1. lra.
Qed.

Lemma ex_circ_mu o : kep_init ek ex_circ_args = Ok o -> G_grav ek * o_m_total o <= 6000.
Proof.
  intro H. apply (f_equal (fun r => match r with Ok o => o_m_total o | Err _ => 0 end)) in H. cbn in H.
  rewrite <- H. cbn. lra.
Qed.
Lemma ex_c_light : c_light ek > 1000.
Proof. cbn. lra. Qed.
