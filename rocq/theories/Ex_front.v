(** * Passages in front of the star: cases *)
From Coq Require Import Reals Lra Lia Bool List Arith ZArith Psatz.
From Verif Require Import Num CoreOps Inst CoreFlux M_units M_kepler M_fin M_tensor M_simple M_ttv M_limbdark M_secondary
  Spec_orbit Spec_params Spec_array Spec_light Spec_sym Spec_back Spec_front L_real L_orbit L_params4 L_motion L_light7 L_light8 L_light9
  Ex_orbit Ex_system Ex_sym Ex_back.
Import ListNotations.
Open Scope R_scope.

(** a mildly eccentric planet with its periastron on the near side: it is in
    front for less than half the time *)
Lemma sin_32 : 0 < sin (3 / 2).
Proof. apply sin_gt_0; [lra|]. assert (H := PI2_3_2). lra. Qed.
Lemma sin_one : 0 < sin 1.
Proof. apply sin_gt_0; [lra|]. assert (H := PI2_3_2). lra. Qed.
Lemma front_example : exists o, consts_ok ek /\ kep_init ek (ex_back_args 1 2) = Ok o /\ physical o /\ 0 < o_sin_incl o /\ sinw_of o <> -1 /\ 0 < ecc_of o * sinw_of o /\
  o_t0 o = 2 /\ o_period o = 10.
Proof.
  assert (S1 := sin_one). assert (S2 := sin_32).
  destruct (ex_back 1 2) as (o & H & P & E1 & E2 & E3 & E4). exists o. split; [exact ek_ok|]. split; [exact H|]. split; [exact P|].
  assert (A : o_sin_incl o = sin (3 / 2) /\ sinw_of o = sin 1).
  { apply (f_equal (fun r => match r with Ok o => Some (o_sin_incl o, sinw_of o) | Err _ => None end)) in H. cbn in H. injection H as A B. split; [rewrite <- A|rewrite <- B]; reflexivity. }
  destruct A as [A B]. rewrite A, B, E1. repeat apply conj; try assumption; lra.
Qed.
Lemma front_light_example : exists os o, disk_flux (3 / 10) (2 / 10) <> 0 /\ consts_ok ek /\
  system ek 2 (ex_back_sys 2 1 2) (fun _ => ex_back_args 1 2) os /\ kep_init ek (ex_back_sys 2 1 2) = Ok o /\
  (forall j, (j < 2)%nat -> 0 < o_sin_incl (os j)) /\ elements 2 (vector 2 (fun _ => 1 / 10)) (fun _ => 1 / 10) /\
  is_vector 3 (vector 3 INR) /\ (forall m, (m < 3)%nat -> aget (vector 3 INR) (at_time m) = Fin (INR m)) /\
  opt_exposures 3 (one_texp (Some (1 / 4))) (fun _ => 1 / 4) /\ (exists nodes weights, stencil 7 2 = Ok (nodes, weights)).
Proof.
  destruct front_example as (o0 & _ & A1 & A2 & A3 & _).
  assert (S : system ek 2 (ex_back_sys 2 1 2) (fun _ => ex_back_args 1 2) (fun _ => o0)).
  { constructor; [lia|apply back_batch|apply back_batch|intros; exact A1|intros; exact A2|intros; right; reflexivity]. }
  destruct (L_transit3.system_orbit _ _ _ _ _ ek_ok S) as (o & Ho & _). exists (fun _ => o0), o.
  split; [apply L_light9.disk_example|]. split; [exact ek_ok|]. split; [exact S|]. split; [exact Ho|]. split; [intros; exact A3|].
  split; [apply elements_vector|]. split; [apply L_transit6.vector_is|]. split; [apply L_transit6.vector_at|]. split; [apply one_exp|].
  apply stencil_exists; lia.
Qed.
