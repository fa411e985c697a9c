(** * Examples: secondary eclipses *)
From Coq Require Import Reals List Bool Arith ZArith Lra Lia.
From Verif Require Import Num CoreOps Inst CoreFlux M_units M_kepler M_fin M_tensor M_simple M_ttv M_limbdark M_secondary
  Spec_orbit Spec_params Spec_array Spec_light Spec_secondary Spec_depth L_real L_orbit L_real L_orbit L_params3 L_fl L_fl2 L_fl3 L_fl4 L_tens L_shape L_transit3 L_transit5 L_transit6 L_array L_motion L_pmotion L_pmotion3 L_pmotion5 L_reshape L_light1 L_light4 L_light5 L_light7 L_light8 L_light9 L_transit4 L_second  L_second2 L_params4 L_eclipse Ex_orbit Ex_system.
Import ListNotations.
Open Scope R_scope.

Definition ex_eclipse_times (m : nat) : R := 2 + 5 * INR m.
Lemma eclipse_example : exists os o, disk_flux (3 / 10) (2 / 10) <> 0 /\ bright (3 / 10) (2 / 10) /\ consts_ok ek /\
  system ek 1 (ex_sys_args 1 ex_bs) (fun j => ex_b_args (ex_bs j)) os /\ kep_init ek (ex_sys_args 1 ex_bs) = Ok o /\
  planet_values 1 (scalar (1 / 10)) (fun _ => 1 / 10) /\ one_each 1 (scalar (1 / 10)) /\ one_each 1 (o_r_star o) /\
  is_vector 3 (vector 3 ex_eclipse_times) /\ (forall m, (m < 3)%nat -> aget (vector 3 ex_eclipse_times) (at_time m) = Fin (ex_eclipse_times m)) /\
  opt_exposures 3 None (fun _ => 0) /\
  let P m := pos ek (os 0%nat) Relative (ex_eclipse_times m) None false in
  (0 < vz (P 0%nat) /\ apart (P 0%nat) + 1 / 10 <= o_r_star (os 0%nat)) /\ (vz (P 1%nat) < 0 /\ apart (P 1%nat) + 1 / 10 <= o_r_star (os 0%nat)).
Proof.
  destruct (ex_b 0 ltac:(lra)) as (o0 & A1 & A2 & A3 & A4 & A5 & A6 & A7 & A8 & A9 & A10 & A11).
  assert (S : system ek 1 (ex_sys_args 1 ex_bs) (fun j => ex_b_args (ex_bs j)) (fun _ => o0)).
  { constructor.
    - lia.
    - apply ex_sys_planet.
    - intros [|j] Hj; [|lia]; reflexivity.
    - intros [|j] Hj; [|lia]; assumption.
    - intros j Hj; assumption.
    - intros j Hj; left; reflexivity. }
  destruct (system_orbit _ _ _ _ _ ek_ok S) as (o & Ho & _). exists (fun _ => o0), o.
  split; [apply disk_example|]. split; [apply kipping_bright; lra|]. split; [exact ek_ok|]. split; [exact S|]. split; [exact Ho|].
  split; [apply scalar_values|]. split; [right; split; reflexivity|].
  split; [destruct (proj2 (proj1 (rstar_numbers ek 1 _ _ _ o ek_ok S Ho))) as [E|E]; [right; split; [reflexivity|exact E]|left; exact E]|].
  split; [apply vector_is|]. split; [apply vector_at|]. split; [intro; reflexivity|]. cbv zeta.
  assert (W : sinw_of o0 <> -1) by (unfold sinw_of; rewrite A5; lra).
  assert (Es : ecc_of o0 * ecc_of o0 = 0 /\ ecc_of o0 * sinw_of o0 = 0) by (unfold ecc_of, sinw_of; rewrite A5; lra). destruct Es as [Es1 Es2].
  destruct (mid_transit ek _ o0 ek_ok A1 A2 W) as (M1 & M2 & M3). rewrite Es1, Es2 in M2, M3. rewrite A6, A9, Rabs_R0 in M1.
  destruct (half_period ek _ o0 (o_t0 o0) ek_ok A1 A2 A5) as [H1 H2]. rewrite A7, A8 in *.
  assert (SI : 0 < o_sin_incl o0).
  { assert (F := kep_init_facts ek ek_ok _ o0 A1 A2). assert (C : o_cos_incl o0 = 0) by (rewrite (of_cosi_b _ _ _ F), A6; ring).
    rewrite (of_cosi _ _ _ F) in C. assert (Q := sin2_cos2 (o_incl o0)). unfold Rsqr in Q. rewrite <- (of_sini _ _ _ F) in Q. rewrite C in Q. destruct A11 as [A11|A11]; [exact A11|]. rewrite <- A11 in Q. lra. }
  assert (Z : 0 < vz (pos ek o0 Relative 2 None false)). { change (0 < vz (get_relative_position ek o0 (kep_warp o0) 2 None false)). rewrite M2. apply Rmult_lt_0_compat; assumption. }
  assert (Ap : apart (pos ek o0 Relative 2 None false) = 0). { unfold apart. change (pos ek o0 Relative) with (get_relative_position ek o0 (kep_warp o0)). rewrite M1. ring. }
  unfold ex_eclipse_times. replace (2 + 5 * INR 0) with 2 by (cbn; ring). replace (2 + 5 * INR 1) with (2 + 10 / 2) by (cbn; field). rewrite H1, H2, Ap, A9. repeat split; lra.
Qed.
Lemma timing_example : exists o, consts_ok ek /\ kep_init ek ex_ecc_args = Ok o /\ physical o /\ sinw_of o <> 1 /\ sinw_of o <> -1 /\ ecc_of o = 3 / 10.
Proof.
  destruct ex_ecc as (o & H & Hp & _ & _ & He & Hs & _). exists o. split; [exact ek_ok|]. split; [exact H|]. split; [exact Hp|]. rewrite Hs. assert (A : 0 < sin 1) by (apply sin_gt_0; generalize PI2_1; lra). 
  assert (B : 0 < cos 1) by (apply cos_gt_0; generalize PI2_1; lra). assert (C := sin2_cos2 1). unfold Rsqr in C. split; [nra|]. split; [lra|exact He].
Qed.
