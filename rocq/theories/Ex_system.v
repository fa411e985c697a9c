(** * A concrete two-planet system meeting the hypotheses of the theorems *)
From Coq Require Import Reals Lra Lia Bool List Arith ZArith.
From Coquelicot Require Import Coquelicot.
From Verif Require Import Num CoreOps Inst M_units M_kepler M_fin M_tensor Spec_orbit Spec_params Spec_array L_real L_orbit L_kwargs
  L_pmotion5 L_transit Ex_orbit.
Import ListNotations.
Open Scope R_scope.

(** period 10, mid-transit time 2, impact parameter b *)
Definition ex_b_args (b : R) : kargs R :=
  {| ka_period := Some (plain 10); ka_a := None; ka_t0 := Some 2; ka_tper := None;
     ka_incl := None; ka_b := Some b; ka_duration := None; ka_ecc := None;
     ka_omega := None; ka_sin_omega := None; ka_cos_omega := None; ka_Omega := None;
     ka_m_planet := Some (plain (1 / 2)); ka_m_star := None; ka_r_star := None;
     ka_rho_star := None; ka_ror := None; ka_m_planet_units := None; ka_rho_star_units := None |}.
(** the same as arrays: one period and impact parameter per planet, shared
    mid-transit time and planet mass *)
Definition ex_sys_args (n : nat) (bs : nat -> R) : kargs tens :=
  {| ka_period := Some (plain (vector n (fun _ => 10))); ka_a := None; ka_t0 := Some (scalar 2); ka_tper := None;
     ka_incl := None; ka_b := Some (vector n bs); ka_duration := None; ka_ecc := None;
     ka_omega := None; ka_sin_omega := None; ka_cos_omega := None; ka_Omega := None;
     ka_m_planet := Some (plain (scalar (1 / 2))); ka_m_star := None; ka_r_star := None;
     ka_rho_star := None; ka_ror := None; ka_m_planet_units := None; ka_rho_star_units := None |}.
(** eccentric keyword arguments, eccentricity 0 *)
Definition ex_esys_args (n : nat) (bs : nat -> R) : kargs tens :=
  {| ka_period := Some (plain (vector n (fun _ => 10))); ka_a := None; ka_t0 := Some (scalar 2); ka_tper := None;
     ka_incl := None; ka_b := Some (vector n bs); ka_duration := None; ka_ecc := Some (scalar 0);
     ka_omega := Some (scalar 1); ka_sin_omega := None; ka_cos_omega := None; ka_Omega := None;
     ka_m_planet := Some (plain (scalar (1 / 2))); ka_m_star := None; ka_r_star := None;
     ka_rho_star := None; ka_ror := None; ka_m_planet_units := None; ka_rho_star_units := None |}.
(** given by the inclination *)
Definition ex_incl_args (i : R) : kargs R :=
  {| ka_period := Some (plain 10); ka_a := None; ka_t0 := Some 2; ka_tper := None;
     ka_incl := Some i; ka_b := None; ka_duration := None; ka_ecc := None;
     ka_omega := None; ka_sin_omega := None; ka_cos_omega := None; ka_Omega := None;
     ka_m_planet := Some (plain (1 / 2)); ka_m_star := None; ka_r_star := None;
     ka_rho_star := None; ka_ror := None; ka_m_planet_units := None; ka_rho_star_units := None |}.
Definition ex_incl_sys_args (i : R) : kargs tens :=
  {| ka_period := Some (plain (vector 1 (fun _ => 10))); ka_a := None; ka_t0 := Some (scalar 2); ka_tper := None;
     ka_incl := Some (scalar i); ka_b := None; ka_duration := None; ka_ecc := None;
     ka_omega := None; ka_sin_omega := None; ka_cos_omega := None; ka_Omega := None;
     ka_m_planet := Some (plain (scalar (1 / 2))); ka_m_star := None; ka_r_star := None;
     ka_rho_star := None; ka_ror := None; ka_m_planet_units := None; ka_rho_star_units := None |}.
(** one planet crossing the centre of the star, one that never transits *)
Definition ex_bs (j : nat) : R := match j with O => 0 | _ => 2 end.

Lemma ex_a_big : 2 < Rpowr (2942.2062175044193 * (1 + 1 / 2) * (10 * 10) / (4 * (PI * PI))) (1 / 3).
Proof.
  assert (H := PI_RGT_0). assert (H4 := PI_4). set (X := 2942.2062175044193 * (1 + 1 / 2) * (10 * 10) / (4 * (PI * PI))).
  assert (HX : 8 < X). { unfold X. apply Rmult_lt_reg_r with (4 * (PI * PI)). assert (0 < PI * PI) by nra. lra. assert (0 < PI * PI <= 16) by nra. unfold Rdiv. rewrite Rmult_assoc, Rinv_l; lra. }
  unfold Rpowr. destruct (Rlt_dec 0 X); [|lra].
  assert (E : Rpower 8 (1 / 3) = 2).
  { replace 8 with (Rpower 2 3). 2:{ replace 3 with (INR 3) by (cbn; lra). rewrite Rpower_pow; cbn; lra. }
    rewrite Rpower_mult. replace (3 * (1 / 3)) with 1 by field. apply Rpower_1. lra. }
  rewrite <- E at 1. unfold Rpower. apply exp_increasing. assert (ln 8 < ln X) by (apply ln_increasing; lra). lra.
Qed.

Lemma ex_b (b : R) : 0 <= b <= 2 -> exists o, kep_init ek (ex_b_args b) = Ok o /\ physical o /\
  0 < o_m_planet o /\ 0 < o_m_star o /\ o_ecc o = None /\ o_b o = b /\ o_period o = 10 /\ o_t0 o = 2 /\ o_r_star o = 1 /\ 2 < o_a o /\ 0 <= o_sin_incl o.
Proof.
  intro Hb. assert (A := ex_a_big). eexists. split; [reflexivity|]. set (A0 := Rpowr _ _) in *.
  assert (C : 0 <= b * 1 / A0 <= 1).
  { split; [apply Rmult_le_pos; [lra|apply Rlt_le, Rinv_0_lt_compat; lra]|].
    apply Rmult_le_reg_r with A0; [lra|]. unfold Rdiv. rewrite Rmult_assoc, Rinv_l; lra. }
  assert (Q : forall u, acos u = acos u -> 0 <= sin (acos u)) by (intros u _; destruct (acos_bound u); apply sin_ge_0; lra).
  split; [|cbn; fold A0; repeat split; simR; try lra; try (apply Q; reflexivity)].
  constructor; cbn; fold A0; simR; try lra; try discriminate.
Qed.

Lemma vector_pp n v : per_planet n (vector n v).
Proof.
  split; [|right; reflexivity]. intros s E i i' H. cbn in *. injection E as <-. do 2 f_equal. destruct (Nat.eqb_spec n 1) as [E|E]; [reflexivity|]. apply H. exact E.
Qed.
Lemma scalar_pp n v : per_planet n (scalar v).
Proof. split; [|left; reflexivity]. intros s E i i' H. reflexivity. Qed.
Lemma ex_sys_planet n bs : planet_args n (ex_sys_args n bs).
Proof. constructor; cbn; try exact I; try reflexivity; first [apply vector_pp|apply scalar_pp|left; reflexivity]. Qed.

Lemma ex_system : exists os, system ek 2 (ex_sys_args 2 ex_bs) (fun j => ex_b_args (ex_bs j)) os /\
  forall j, (j < 2)%nat -> o_ecc (os j) = None /\ o_b (os j) = ex_bs j /\ o_period (os j) = 10 /\ o_t0 (os j) = 2 /\ o_r_star (os j) = 1 /\ 2 < o_a (os j) /\ 0 <= o_sin_incl (os j).
Proof.
  destruct (ex_b 0 ltac:(lra)) as (o0 & A1 & A2 & A3 & A4 & A5). destruct (ex_b 2 ltac:(lra)) as (o1 & B1 & B2 & B3 & B4 & B5).
  exists (fun j => match j with O => o0 | _ => o1 end). split.
  - constructor.
    + lia.
    + apply ex_sys_planet.
    + intros [|[|j]] Hj; [| |lia]; reflexivity.
    + intros [|[|j]] Hj; [| |lia]; assumption.
    + intros [|[|j]] Hj; [| |lia]; assumption.
    + intros j Hj; left; reflexivity.
  - intros [|[|j]] Hj; [| |lia]; assumption.
Qed.

(** a single planet described by scalars *)
Definition ex_scalar_args (b : R) : kargs tens :=
  {| ka_period := Some (plain (scalar 10)); ka_a := None; ka_t0 := Some (scalar 2); ka_tper := None;
     ka_incl := None; ka_b := Some (scalar b); ka_duration := None; ka_ecc := None;
     ka_omega := None; ka_sin_omega := None; ka_cos_omega := None; ka_Omega := None;
     ka_m_planet := Some (plain (scalar (1 / 2))); ka_m_star := None; ka_r_star := None;
     ka_rho_star := None; ka_ror := None; ka_m_planet_units := None; ka_rho_star_units := None |}.
Lemma ex_scalar : exists o, system ek 1 (ex_scalar_args 0) (fun _ => ex_b_args 0) (fun _ => o) /\
  o_ecc o = None /\ o_b o = 0 /\ o_period o = 10 /\ o_t0 o = 2 /\ o_r_star o = 1 /\ 2 < o_a o /\ 0 <= o_sin_incl o.
Proof.
  destruct (ex_b 0 ltac:(lra)) as (o0 & A1 & A2 & A3 & A4 & A5). exists o0. split; [|exact A5]. constructor.
  - lia.
  - constructor; cbn; try exact I; first [apply scalar_pp|right; split; reflexivity].
  - intros j Hj. reflexivity.
  - intros j Hj. exact A1.
  - intros j Hj. exact A2.
  - intros j Hj. left. reflexivity.
Qed.
