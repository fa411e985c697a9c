(** * Two planets given by their durations: a case *)
From Coq Require Import Reals Lra Lia Bool List Arith ZArith Psatz.
From Verif Require Import Num CoreOps Inst CoreFlux M_units M_kepler M_fin M_tensor M_simple M_limbdark
  Spec_orbit Spec_params Spec_array Spec_simple Spec_light Spec_depth Spec_same L_real L_orbit L_params4 L_transit L_light1 L_light4 L_light7 L_light8 L_light9 L_depth2
  Ex_orbit Ex_system Ex_sym Ex_depth L_simple2.
Import ListNotations.
Open Scope R_scope.

Definition ex_same_args (t0 : R) : kargs R :=
  {| ka_period := Some (plain 6); ka_a := None; ka_t0 := Some t0; ka_tper := None;
     ka_incl := None; ka_b := Some (1 / 2); ka_duration := Some (plain 1); ka_ecc := None;
     ka_omega := None; ka_sin_omega := None; ka_cos_omega := None; ka_Omega := None;
     ka_m_planet := Some (plain 0); ka_m_star := None; ka_r_star := Some (plain 2);
     ka_rho_star := None; ka_ror := Some (1 / 10); ka_m_planet_units := None; ka_rho_star_units := None |}.
Definition ex_same_sys : kargs tens :=
  {| ka_period := Some (plain (vector 2 (fun _ => 6))); ka_a := None; ka_t0 := Some (vector 2 INR); ka_tper := None;
     ka_incl := None; ka_b := Some (scalar (1 / 2)); ka_duration := Some (plain (scalar 1)); ka_ecc := None;
     ka_omega := None; ka_sin_omega := None; ka_cos_omega := None; ka_Omega := None;
     ka_m_planet := Some (plain (scalar 0)); ka_m_star := None; ka_r_star := Some (plain (scalar 2));
     ka_rho_star := None; ka_ror := Some (scalar (1 / 10)); ka_m_planet_units := None; ka_rho_star_units := None |}.
Definition ex_same_simple (t0 : R) : sargs R :=
  {| sa_period := 6; sa_duration := 1; sa_t0 := Some t0; sa_b := Some (1 / 2); sa_r_star := Some 2; sa_ror := Some (1 / 10) |}.
Definition ex_same_simples : sargs tens :=
  {| sa_period := vector 2 (fun _ => 6); sa_duration := scalar 1; sa_t0 := Some (vector 2 INR); sa_b := Some (scalar (1 / 2));
     sa_r_star := Some (scalar 2); sa_ror := Some (scalar (1 / 10)) |}.

Lemma ex_same_init t0 : exists o, kep_init ek (ex_same_args t0) = Ok o /\ physical o.
Proof.
  eexists. split; [reflexivity|]. assert (H := PI_RGT_0). assert (H4 := PI_4).
  assert (Hs6 : sin (PI * 1 / 6) = 1 / 2) by (replace (PI * 1 / 6) with (PI / 6) by field; apply sin_PI6).
  assert (Hc6 : cos (PI * 1 / 6) * cos (PI * 1 / 6) = 3 / 4).
  { generalize (sin2_cos2' (PI * 1 / 6)). rewrite Hs6. lra. }
  assert (Ha : 1 <= sqrt ((1 + 1 / 10) * (1 + 1 / 10) - 1 / 2 * (1 / 2) * (cos (PI * 1 / 6) * cos (PI * 1 / 6)))).
  { rewrite Hc6. rewrite <- sqrt_1 at 1. apply sqrt_le_1_alt. lra. }
  assert (Ha' : sqrt ((1 + 1 / 10) * (1 + 1 / 10) - 1 / 2 * (1 / 2) * (cos (PI * 1 / 6) * cos (PI * 1 / 6))) * sqrt ((1 + 1 / 10) * (1 + 1 / 10) - 1 / 2 * (1 / 2) * (cos (PI * 1 / 6) * cos (PI * 1 / 6))) = 1.0225).
  { rewrite Hc6. rewrite sqrt_sqrt; lra. }
  set (S := sqrt _) in *.
  assert (Ea : 2 * (S / sin (PI * 1 / 6)) = 4 * S) by (rewrite Hs6; field).
  assert (Hpp : 0 < PI * PI <= 16) by nra.
  assert (Hm : 0 < 4 * PI * PI * (4 * S * (4 * S * (4 * S))) / (2942.2062175044193 * (6 * 6)) - 0).
  { rewrite Rminus_0_r. apply Rdiv_lt_0_compat; [|lra]. assert (0 < S * S * S) by nra.
    replace (4 * PI * PI * (4 * S * (4 * S * (4 * S)))) with (PI * PI * (256 * (S * S * S))) by ring. nra. }
  constructor; cbn; fold S; simR; rewrite ?Ea; try lra; try discriminate.
  assert (0 < 1 * 2 / (4 * S) * (1 / 2) <= 1).
  { split. apply Rmult_lt_0_compat; [|lra]. apply Rdiv_lt_0_compat; lra.
    apply Rmult_le_reg_r with (4 * S). lra. replace (1 * 2 / (4 * S) * (1 / 2) * (4 * S)) with 1 by (field; lra). lra. }
  lra.
Qed.
Lemma same_example : exists os o, consts_ok ek /\ system ek 2 ex_same_sys (fun j => ex_same_args (INR j)) os /\ kep_init ek ex_same_sys = Ok o /\
  simple_system 2 ex_same_simples (fun j => ex_same_simple (INR j)) /\ (forall j, (j < 2)%nat -> same_transit (ex_same_args (INR j)) (ex_same_simple (INR j))) /\
  disk_flux (3 / 10) (2 / 10) <> 0 /\ bright (3 / 10) (2 / 10) /\ darkening (3 / 10) (2 / 10) /\
  elements 2 (vector 2 (fun _ => 2 / 10)) (fun _ => 2 / 10) /\
  (forall j, (j < 2)%nat -> 0 <= 2 / 10 <= dflt 0 (sa_ror (ex_same_simple (INR j))) * dflt 1 (sa_r_star (ex_same_simple (INR j)))) /\
  is_vector 3 (vector 3 (fun m => INR m / 4)) /\ (forall m, (m < 3)%nat -> aget (vector 3 (fun m => INR m / 4)) (at_time m) = Fin (INR m / 4)) /\
  opt_exposures 3 (one_texp (Some (1 / 4))) (fun _ => 1 / 4) /\ (exists nodes weights, stencil 7 2 = Ok (nodes, weights)).
Proof.
  destruct (ex_same_init (INR 0)) as (o0 & A1 & A2). destruct (ex_same_init (INR 1)) as (o1 & B1 & B2).
  assert (S : system ek 2 ex_same_sys (fun j => ex_same_args (INR j)) (fun j => match j with O => o0 | _ => o1 end)).
  { constructor; [lia| | | | |intros; left; reflexivity].
    - constructor; cbn; try exact I; try reflexivity; first [apply vector_pp|apply scalar_pp|left; reflexivity].
    - intros [|[|j]] Hj; [| |lia]; reflexivity.
    - intros [|[|j]] Hj; [| |lia]; assumption.
    - intros [|[|j]] Hj; [| |lia]; assumption. }
  destruct (L_transit3.system_orbit _ _ _ _ _ ek_ok S) as (o & Ho & _). exists (fun j => match j with O => o0 | _ => o1 end), o.
  split; [exact ek_ok|]. split; [exact S|]. split; [exact Ho|]. split.
  { constructor; cbn; try exact I; try apply vector_pp; try apply scalar_pp; [split; [apply vector_pp|left; reflexivity]|].
    intros [|[|j]] Hj; [| |lia]; reflexivity. }
  split; [intros j Hj; constructor; try reflexivity; cbn; lra|]. destruct dark_example as (D1 & D2 & D3 & _). split; [lra|]. split; [exact D2|]. split; [exact D3|].
  split; [apply elements_vector|]. split; [intros j Hj; cbn; lra|]. split; [apply L_transit6.vector_is|]. split; [apply L_transit6.vector_at|]. split; [apply one_exp|]. apply stencil_exists; [lia|right; right; reflexivity].
Qed.
