(** * Examples for C102 *)
From Coq Require Import Reals List Lra Lia ZArith Arith.
From Verif Require Import Num CoreOps Inst CoreFlux M_units M_kepler M_fin M_tensor M_simple M_ttv M_limbdark Spec_orbit Spec_params Spec_array Spec_light Spec_simple Spec_ttv Spec_undef
  L_stack Ex_orbit Ex_system L_light8 L_light9 L_ttv6 L_simple2 Ex_compose Ex_accuracy L_ptransit L_undef L_undef2 L_undef3 Ex_stack.
Import ListNotations.
Open Scope R_scope.

(** three times: a transit, NaN, infinity *)
Definition gap_times : tens := mkA (Ok [3%nat]) (fun i => match i O with O => Fin 2 | 1%nat => NaN | _ => Inf true end).
(** two radii, both NaN *)
Definition nan_radius : tens := mkA (Ok [2%nat]) (fun _ => NaN).
Lemma gap_ok : is_vector 3 gap_times /\ aget gap_times (at_time 0) = Fin 2 /\ undefined (aget gap_times (at_time 1)) /\ undefined (aget gap_times (at_time 2)) /\
  exposure_values 3 None (fun _ => Fin 0) /\ exposure_values 3 (Some (scalar (1 / 10))) (fun _ => Fin (1 / 10)) /\ single None /\ single (Some (scalar (1 / 10))).
Proof.
  split; [split; [|reflexivity]|].
  { intros s Hs i i' Hi. injection Hs as <-. cbn [aget gap_times]. rewrite (Hi O); [reflexivity|cbn; lia]. }
  split; [reflexivity|]. split; [intros ? H; discriminate H|]. split; [intros ? H; discriminate H|]. split; [intro; reflexivity|].
  split; [split; [intros s _ i i' _; reflexivity|left; split; [reflexivity|intro; reflexivity]]|]. split; [intros a H; discriminate H|]. intros a H. injection H as <-. reflexivity.
Qed.
Lemma undef_example : exists os o, system ek 2 (ex_sys_args 2 ex_bs) (fun j => ex_b_args (ex_bs j)) os /\ planet_args 2 (ex_sys_args 2 ex_bs) /\
  kep_init ek (ex_sys_args 2 ex_bs) = Ok o /\ ka_ecc (ex_sys_args 2 ex_bs) = None /\
  is_vector 3 gap_times /\ undefined (aget gap_times (at_time 1)) /\ exposure_values 3 None (fun _ => Fin 0) /\
  forall cp, exists X, get_light_curve (ld_init (Fin (3 / 10)) (Fin (2 / 10))) (Some (kep_api ek (lift_cp cp) o)) (Some (vector 2 (fun _ => 1 / 10))) (Some gap_times) None 7 0 None false = Ok X /\
    ash X = Ok [2%nat; 3%nat] /\ aget X (at_tp 1 0) = Fin 0 /\ aget X (at_tp 2 0) = Fin 0.
Proof.
  destruct planets_example as (os & o & A & B & C & _). exists os, o. split; [exact A|]. split; [exact B|]. split; [exact C|]. split; [reflexivity|].
  destruct gap_ok as (G1 & G2 & G3 & G4 & G5 & G6 & G7 & G8). split; [exact G1|]. split; [exact G3|]. split; [exact G5|]. intro cp.
  assert (K := kepler_skips ek 2 (ex_sys_args 2 ex_bs) o ltac:(lia) B C (ld_init (Fin (3 / 10)) (Fin (2 / 10))) (vector 2 (fun _ => 1 / 10)) [2%nat] None false eq_refl eq_refl (fun _ => eq_refl) cp).
  destruct (K 3%nat gap_times None (fun _ => Fin 0) gap_times None (fun _ => Fin 0) 7%Z 0%Z G1 G1 G5 G5 (conj (fun e => e) (fun e => e)) (fun _ => G7) (fun _ => G7)) as (X & X' & E & _ & S & _ & V); [lia|lia|].
  exists X. split; [exact E|]. split; [exact S|]. split; apply V; try lia; left; assumption.
Qed.
Lemma undef_others : (exists o os, consts_ok ek /\ ttv_init ek ex_x = Ok o /\ ttv_system ek 2 o os ex_tts) /\
  (simple_system 1 ex_one_simple (fun _ => ex_simple (1 / 2)) /\ simple_ok (ex_simple (1 / 2))) /\
  is_vector 3 gap_times /\ undefined (aget gap_times (at_time 1)) /\ exposure_values 3 (Some (scalar (1 / 10))) (fun _ => Fin (1 / 10)) /\ single (Some (scalar (1 / 10))) /\
  (ash nan_radius = Ok [2%nat] /\ prod [2%nat] = 2%nat /\ (forall j, (j < 2)%nat -> undefined (flat nan_radius j))) /\
  (is_vector 3 (vector 3 INR) /\ per_planet 2 (vector 2 (fun _ => 1 / 10))).
Proof.
  destruct stack_orbits as (_ & A & B & _). split; [exact A|]. split; [exact B|].
  destruct gap_ok as (G1 & G2 & G3 & G4 & G5 & G6 & G7 & G8). split; [exact G1|]. split; [exact G3|]. split; [exact G6|]. split; [exact G8|].
  split; [split; [reflexivity|]; split; [reflexivity|]; intros j _ x H; discriminate H|]. split; [apply L_transit6.vector_is|].
  exact (proj1 (L_transit6.vector_values 2 (fun _ => 1 / 10))).
Qed.
