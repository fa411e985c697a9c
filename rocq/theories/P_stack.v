(** * Exposures as averages, and consecutive exposures: property C97 *)
From Coq Require Import Reals List ZArith.
From Verif Require Import Num CoreOps Inst CoreFlux M_units M_kepler M_fin M_tensor M_simple M_ttv M_limbdark Spec_orbit Spec_params Spec_array Spec_light Spec_simple Spec_ttv Spec_delay Spec_stack
  L_stack Ex_orbit Ex_system L_ttv6 L_simple2 Ex_compose Ex_stack.
Import ListNotations.
Open Scope R_scope.

(** KeplerianOrbit, without light delay or with planets slow enough for it *)
Theorem C97_kepler : forall u1 u2 k n (x : kargs tens) xs os o cp r rs ld, disk_flux u1 u2 <> 0 -> consts_ok k -> system k n x xs os -> kep_init k x = Ok o ->
  elements n r rs -> ld = false \/ (forall j, (j < n)%nat -> slow k (os j)) ->
  let curve t texp osam order := get_light_curve (ld_init (Fin u1) (Fin u2)) (Some (kep_api k cp o)) (Some r) (Some t) texp osam order (Some false) ld in
  exposures_average n curve /\ exposures_stack n curve.
Proof. exact kepler_stack. Qed.
Print Assumptions C97_kepler.

(** TTVOrbit *)
Theorem C97_ttv : forall u1 u2 k n o os tts cp r rs, disk_flux u1 u2 <> 0 -> consts_ok k -> ttv_system k n o os tts -> elements n r rs ->
  let curve t texp osam order := get_light_curve (ld_init (Fin u1) (Fin u2)) (Some (ttv_api k cp o)) (Some r) (Some t) texp osam order (Some false) false in
  exposures_average n curve /\ exposures_stack n curve.
Proof. exact ttv_stack. Qed.
Print Assumptions C97_ttv.

(** SimpleTransitOrbit *)
Theorem C97_simple : forall u1 u2 n x xs r rs, disk_flux u1 u2 <> 0 -> simple_system n x xs -> (forall j, (j < n)%nat -> simple_ok (xs j)) -> elements n r rs ->
  let curve t texp osam order := get_light_curve (ld_init (Fin u1) (Fin u2)) (Some (simple_api (simple_init x))) (Some r) (Some t) texp osam order (Some false) false in
  exposures_average n curve /\ exposures_stack n curve.
Proof. exact simple_stack. Qed.
Print Assumptions C97_simple.

(** with order 0 an even number of exposures cannot be put together *)
Theorem C97_even_refuted : forall M osam osam', Nat.even M = true -> ~ refines 0 M osam osam'.
Proof. exact even_stack. Qed.
Print Assumptions C97_even_refuted.

Example C97_example : refines 0 3 7 21 /\ refines 1 4 7 25 /\ refines 2 4 7 25 /\ refines 2 2 2 5 /\
  divided 1 3 (fun _ => 10) (fun _ => 6) (fun i => 8 + 2 * INR i) (fun _ => 2).
Proof. exact stack_example. Qed.
Example C97_example_orbits : (exists os o, system ek 2 (ex_sys_args 2 ex_bs) (fun j => ex_b_args (ex_bs j)) os /\ kep_init ek (ex_sys_args 2 ex_bs) = Ok o) /\
  (exists o os, consts_ok ek /\ ttv_init ek ex_x = Ok o /\ ttv_system ek 2 o os ex_tts) /\
  (simple_system 1 ex_one_simple (fun _ => ex_simple (1 / 2)) /\ simple_ok (ex_simple (1 / 2))) /\
  disk_flux (3 / 10) (2 / 10) <> 0 /\ elements 2 (vector 2 (fun _ => 1 / 10)) (fun _ => 1 / 10).
Proof. exact stack_orbits. Qed.
