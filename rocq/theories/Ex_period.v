(** * A system seen two periods later *)
From Coq Require Import Reals Lra Lia Bool List Arith ZArith Psatz.
From Verif Require Import Num CoreOps Inst CoreFlux M_units M_kepler M_fin M_tensor M_simple M_ttv M_limbdark M_secondary
  Spec_orbit Spec_params Spec_array Spec_light Spec_simple Spec_secondary Spec_delay Spec_sym Spec_period L_real L_orbit L_simple L_simple2 L_light8
  Ex_orbit Ex_system Ex_reach Ex_delay Ex_sym.
Import ListNotations.
Open Scope R_scope.

Definition two_later (m : nat) : R := INR m + 20.
Lemma period_example : exists os o, disk_flux (3 / 10) (2 / 10) <> 0 /\ consts_ok ek /\
  system ek 2 (ex_full_sys 2 ex_bs 2 1 1 (1 / 2)) (fun j => ex_full_args (ex_bs j) 2 1 1 (1 / 2)) os /\
  kep_init ek (ex_full_sys 2 ex_bs 2 1 1 (1 / 2)) = Ok o /\
  (forall j, (j < 2)%nat -> slow ek (os j) /\ o_period (os j) = 10) /\
  planet_values 2 (vector 2 (fun _ => 1 / 10)) (fun _ => 1 / 10) /\ elements 2 (vector 2 (fun _ => 1 / 10)) (fun _ => 1 / 10) /\
  one_each 2 (vector 2 (fun _ => 1 / 10)) /\ one_each 2 (o_r_star o) /\
  is_vector 3 (vector 3 INR) /\ (forall m, (m < 3)%nat -> aget (vector 3 INR) (at_time m) = Fin (INR m)) /\
  is_vector 3 (vector 3 two_later) /\ (forall m, (m < 3)%nat -> aget (vector 3 two_later) (at_time m) = Fin (two_later m)) /\
  periods_apart 2 3 (fun j => o_period (os j)) INR two_later.
Proof.
  destruct sym_example as (os & o & E1 & E2 & E3 & E4 & E5 & E6 & E7 & _ & _ & E10 & _ & E12 & _ & E14 & E15 & _).
  exists os, o.
  assert (P : forall j, (j < 2)%nat -> o_period (os j) = 10).
  { intros j Hj. assert (H := sy_init _ _ _ _ _ E3 j Hj). apply (f_equal (fun r => match r with Ok o => o_period o | Err _ => 0 end)) in H. rewrite <- H. reflexivity. }
  repeat match goal with |- _ /\ _ => split end; try assumption.
  - intros j Hj. split; [apply (E5 j Hj)|apply (P j Hj)].
  - apply L_transit6.vector_is.
  - apply L_transit6.vector_at.
  - intros m j Hm Hj. exists 2%Z. rewrite (P j Hj). unfold two_later. lra.
Qed.
Lemma simple_period_example : simple_system 2 (ex_simples (fun j => INR j / 2)) (fun j => ex_simple (INR j / 2)) /\ (forall j, (j < 2)%nat -> simple_ok (ex_simple (INR j / 2))) /\
  periods_apart 2 3 (fun j => sa_period (ex_simple (INR j / 2))) INR two_later.
Proof.
  destruct simple_example as (A & B & _). split; [exact A|]. split; [exact B|].
  intros m j _ _. exists 2%Z. unfold two_later. cbn. lra.
Qed.
