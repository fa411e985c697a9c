(** * A slow system *)
From Coq Require Import Reals Lra Lia Bool List Arith ZArith Psatz.
From Verif Require Import Num CoreOps Inst CoreFlux M_units M_kepler M_fin M_tensor M_simple M_ttv M_limbdark M_secondary
  Spec_orbit Spec_params Spec_array Spec_light Spec_secondary Spec_reach Spec_delay L_real L_orbit L_motion L_pmotion5 L_transit L_light8 L_second2
  Ex_orbit Ex_system Ex_reach.
Import ListNotations.
Open Scope R_scope.

Lemma ex_slow o : kep_init ek (ex_b_args 0) = Ok o -> o_period o = 10 -> o_ecc o = None -> 2 < o_a o -> slow ek o.
Proof.
  intros A1 A2 A3 A4. assert (Ea : o_a o < 100).
  { assert (B := ex_a_below). apply (f_equal (fun r => match r with Ok o => o_a o | Err _ => 0 end)) in A1. rewrite <- A1. cbn. simR. exact B. }
  unfold slow, peak_speed, ecc_of. rewrite A2, A3. replace ((1 + 0) / (1 - 0)) with 1 by field. rewrite sqrt_1. assert (P := PI_4). assert (Q := PI_RGT_0). cbn [c_light ek].
  assert (2 * PI / 10 * o_a o <= 100) by nra. cbn. lra.
Qed.
(** one planet half a period after its transit, seen from behind the star *)
Lemma delay_example : exists os o o2, disk_flux (3 / 10) (2 / 10) <> 0 /\ consts_ok ek /\
  system ek 1 (ex_sys_args 1 ex_bs) (fun j => ex_b_args (ex_bs j)) os /\ kep_init ek (ex_sys_args 1 ex_bs) = Ok o /\
  (forall j, (j < 1)%nat -> slow ek (os j)) /\
  planet_values 1 (scalar (1 / 10)) (fun _ => 1 / 10) /\ one_each 1 (scalar (1 / 10)) /\ one_each 1 (o_r_star o) /\
  elements 1 (scalar (1 / 10)) (fun _ => 1 / 10) /\
  is_vector 3 (vector 3 INR) /\ (forall m, (m < 3)%nat -> aget (vector 3 INR) (at_time m) = Fin (INR m)) /\
  flip ek (os O) (1 / 10) = Ok o2 /\ vz (pos ek (os O) Relative 7 None false) < 0.
Proof.
  destruct (ex_b 0 ltac:(lra)) as (o0 & A1 & A2 & A3 & A4 & A5 & A6 & A7 & A8 & A9 & A10 & A11).
  assert (S : system ek 1 (ex_sys_args 1 ex_bs) (fun j => ex_b_args (ex_bs j)) (fun _ => o0)).
  { constructor.
    - lia.
    - apply ex_sys_planet.
    - intros [|j] Hj; [|lia]; reflexivity.
    - intros [|j] Hj; [|lia]; assumption.
    - intros j Hj; assumption.
    - intros j Hj; left; reflexivity. }
  destruct (L_transit3.system_orbit _ _ _ _ _ ek_ok S) as (o & Ho & _).
  destruct (L_pmotion3.flip_init ek (ex_b_args 0) o0 (1 / 10) ek_ok A1 A2 ltac:(lra)) as (o2 & Hf & _).
  assert (O1 : one_each 1 (scalar (1 / 10))) by (right; split; reflexivity).
  exists (fun _ => o0), o, o2.
  split; [apply L_light9.disk_example|]. split; [exact ek_ok|]. split; [exact S|]. split; [exact Ho|].
  split; [intros j _; apply ex_slow; assumption|].
  split; [apply L_transit6.scalar_values|]. split; [exact O1|].
  split; [destruct (proj2 (proj1 (rstar_numbers ek 1 _ _ _ o ek_ok S Ho))) as [E|E]; [right; split; [reflexivity|exact E]|left; exact E]|].
  split; [apply one_each_elements; [exact O1|apply L_transit6.scalar_values]|].
  split; [apply L_transit6.vector_is|]. split; [apply L_transit6.vector_at|]. split; [exact Hf|].
  destruct (L_params4.circ_geom ek ek_ok _ o0 7 A1 A2 A5) as [_ Z]. cbn [pos]. rewrite Z, A7, A8.
  replace (2 * PI * (7 - 2) / 10) with PI by field. rewrite cos_PI.
  assert (F := kep_init_facts ek ek_ok _ _ A1 A2). assert (C := acosi_b ek ek_ok _ o0 A1 A2 A5). rewrite A6, Rmult_0_r in C.
  assert (C0 : o_cos_incl o0 = 0) by (apply (Rmult_eq_reg_l (o_a o0)); lra).
  assert (U := i_unit ek ek_ok _ o0 A1 A2). rewrite C0 in U. assert (S0 : 0 < o_sin_incl o0) by nra. nra.
Qed.
