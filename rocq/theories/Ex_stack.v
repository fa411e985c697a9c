(** * Example for C97 *)
From Coq Require Import Reals List ZArith.
From Verif Require Import Num CoreOps Inst CoreFlux M_units M_kepler M_fin M_tensor M_simple M_ttv M_limbdark Spec_orbit Spec_params Spec_array Spec_light Spec_simple Spec_ttv Spec_delay Spec_stack
  L_stack Ex_orbit Ex_system L_light8 L_light9 L_ttv6 L_simple2 Ex_compose Ex_accuracy L_ptransit.
Import ListNotations.
Open Scope R_scope.

Lemma stack_orbits : (exists os o, system ek 2 (ex_sys_args 2 ex_bs) (fun j => ex_b_args (ex_bs j)) os /\ kep_init ek (ex_sys_args 2 ex_bs) = Ok o) /\
  (exists o os, consts_ok ek /\ ttv_init ek ex_x = Ok o /\ ttv_system ek 2 o os ex_tts) /\
  (simple_system 1 ex_one_simple (fun _ => ex_simple (1 / 2)) /\ simple_ok (ex_simple (1 / 2))) /\
  disk_flux (3 / 10) (2 / 10) <> 0 /\ elements 2 (vector 2 (fun _ => 1 / 10)) (fun _ => 1 / 10).
Proof.
  split; [destruct planets_example as (os & o & A & _ & B & _); exists os, o; split; assumption|].
  split; [destruct ex_ttv as (o & os & A & B & C & _); exists o, os; exact (conj A (conj B C))|].
  split; [destruct simple_exposed_example as (A & B & _); split; assumption|]. split; [exact disk_example|apply elements_vector].
Qed.
