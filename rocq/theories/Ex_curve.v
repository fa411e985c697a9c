(** * Two systems with the same light curve *)
From Coq Require Import Reals Lra Lia Psatz List Bool Arith ZArith.
From Coquelicot Require Import Coquelicot.
From Verif Require Import Num CoreOps Inst CoreFlux M_units M_kepler M_fin M_tensor M_limbdark Spec_orbit Spec_params Spec_array Spec_light Spec_curve L_real L_orbit L_transit L_light8 Ex_orbit Ex_system.
Import ListNotations.
Open Scope R_scope.

(** a planet of half a solar mass, as numbers and as zero-dimensional arrays, of a
    star of mass m and radius s *)
Definition ex_star_args (m s b t0 : R) : kargs R :=
  {| ka_period := Some (plain 10); ka_a := None; ka_t0 := Some t0; ka_tper := None;
     ka_incl := None; ka_b := Some b; ka_duration := None; ka_ecc := None;
     ka_omega := None; ka_sin_omega := None; ka_cos_omega := None; ka_Omega := None;
     ka_m_planet := Some (plain (m / 2)); ka_m_star := Some (plain m); ka_r_star := Some (plain s);
     ka_rho_star := None; ka_ror := None; ka_m_planet_units := None; ka_rho_star_units := None |}.
Definition ex_star_sys (m s b t0 : R) : kargs tens :=
  {| ka_period := Some (plain (scalar 10)); ka_a := None; ka_t0 := Some (scalar t0); ka_tper := None;
     ka_incl := None; ka_b := Some (scalar b); ka_duration := None; ka_ecc := None;
     ka_omega := None; ka_sin_omega := None; ka_cos_omega := None; ka_Omega := None;
     ka_m_planet := Some (plain (scalar (m / 2))); ka_m_star := Some (plain (scalar m)); ka_r_star := Some (plain (scalar s));
     ka_rho_star := None; ka_ror := None; ka_m_planet_units := None; ka_rho_star_units := None |}.
Lemma ex_cube (c : R) : 0 < c -> Rpowr (2942.2062175044193 * (c * c * c + c * c * c / 2) * (10 * 10) / (4 * (PI * PI))) (1 / 3) = c * Rpowr (2942.2062175044193 * (1 + 1 / 2) * (10 * 10) / (4 * (PI * PI))) (1 / 3).
Proof.
  intro Hc. assert (Hpi := PI_RGT_0). set (X := 2942.2062175044193 * (1 + 1 / 2) * (10 * 10) / (4 * (PI * PI))). assert (HX : 0 < X) by (unfold X; apply Rdiv_lt_0_compat; nra).
  replace (2942.2062175044193 * (c * c * c + c * c * c / 2) * (10 * 10) / (4 * (PI * PI))) with (c * c * c * X) by (unfold X; field; lra). assert (H3 : 0 < c * c * c) by (repeat apply Rmult_lt_0_compat; exact Hc).
  unfold Rpowr. destruct (Rlt_dec 0 X); [|lra]. destruct (Rlt_dec 0 (c * c * c * X)) as [h|h]; [|exfalso; apply h, Rmult_lt_0_compat; assumption].
  rewrite <- Rpower_mult_distr by assumption. f_equal. replace (c * c * c) with (Rpower c 3); [|replace 3 with (INR 3) by (cbn; lra); rewrite Rpower_pow by exact Hc; cbn; ring]. rewrite Rpower_mult. replace (3 * (1 / 3)) with 1 by field. apply Rpower_1, Hc.
Qed.
Lemma ex_star c b t0 : 0 < c -> Rabs b <= 1 -> exists o, kep_init ek (ex_star_args (c * c * c) c b t0) = Ok o /\ physical o /\
  0 < o_m_star o /\ o_m_planet o / o_m_star o = 1 / 2 /\ o_ecc o = None /\ o_b o = b /\ o_period o = 10 /\ o_t0 o = t0 /\ o_r_star o = c /\
  o_a o = c * Rpowr (2942.2062175044193 * (1 + 1 / 2) * (10 * 10) / (4 * (PI * PI))) (1 / 3) /\ 0 < o_sin_incl o.
Proof.
  intros Hc Hb. assert (A := ex_a_big). assert (E := ex_cube c Hc). assert (H3 : 0 < c * c * c) by (repeat apply Rmult_lt_0_compat; exact Hc). apply Rabs_le_between in Hb. eexists. split; [reflexivity|].
  set (Q := Rpowr (2942.2062175044193 * (1 + 1 / 2) * (10 * 10) / (4 * (PI * PI))) (1 / 3)) in *. clearbody Q.
  assert (C : -1 < 1 * c / (c * Q) * b < 1).
  { replace (1 * c / (c * Q) * b) with (b / Q) by (field; lra). split; apply (Rmult_lt_reg_r Q); try lra; replace (b / Q * Q) with b by (field; lra); lra. }
  assert (P : 0 < c * Q) by nra.
  split; [|cbn; simR; rewrite ?E; repeat split; try lra; try (field; lra)].
  - constructor; cbn; simR; rewrite ?E; try lra; try discriminate.
  - apply sin_gt_0; [|]; assert (B := acos_bound (1 * c / (c * Q) * b)).
    + destruct (Rle_lt_or_eq_dec 0 _ (proj1 B)) as [h|h]; [exact h|]. assert (K := cos_acos (1 * c / (c * Q) * b) ltac:(lra)). rewrite <- h, cos_0 in K. lra.
    + destruct (Rle_lt_or_eq_dec _ PI (proj2 B)) as [h|h]; [exact h|]. assert (K := cos_acos (1 * c / (c * Q) * b) ltac:(lra)). rewrite h, cos_PI in K. lra.
Qed.
Lemma ex_star_system c b t0 : 0 < c -> Rabs b <= 1 / 2 -> exists o o1, system ek 1 (ex_star_sys (c * c * c) c b t0) (fun _ => ex_star_args (c * c * c) c b t0) (fun _ => o1) /\ kep_init ek (ex_star_sys (c * c * c) c b t0) = Ok o /\
  full_transit o1 (c / 10) /\ o_b o1 = b /\ o_period o1 = 10 /\ o_t0 o1 = t0 /\ o_r_star o1 = c /\ 0 < o_m_star o1 /\ o_m_planet o1 / o_m_star o1 = 1 / 2 /\
  o_a o1 = c * Rpowr (2942.2062175044193 * (1 + 1 / 2) * (10 * 10) / (4 * (PI * PI))) (1 / 3) /\
  plain_mask None 1 (fun _ => ex_star_args (c * c * c) c b t0) (fun _ => o1) (fun _ => c / 10).
Proof.
  intros Hc Hb. destruct (ex_star c b t0 Hc ltac:(lra)) as (o1 & A1 & A2 & A3 & A4 & A5 & A6 & A7 & A8 & A9 & A10 & A11). assert (A := ex_a_big). eexists. exists o1. split; [|split; [reflexivity|]].
  - constructor.
    + lia.
    + constructor; cbn; try exact I; first [apply scalar_pp|right; split; reflexivity].
    + intros j Hj. reflexivity.
    + intros j Hj. exact A1.
    + intros j Hj. exact A2.
    + intros j Hj. left. reflexivity.
  - assert (Z : o_r_star o1 + c / 10 < o_a o1) by (rewrite A9, A10; nra). assert (Z' := Rabs_pos b).
    split; [split; [constructor|]|]; try assumption; try (rewrite ?A6, ?A9; nra); try lra.
    do 7 (split; [assumption|]). right. intros j Hj. split; [lra|]. split; [reflexivity|]. split; [exact Z|lra].
Qed.
