(** * Examples for C112 *)
From Coq Require Import Reals List Lra Lia ZArith Arith.
From Verif Require Import Num CoreOps Inst CoreFlux M_units M_kepler M_fin M_tensor M_simple M_ttv M_limbdark Spec_orbit Spec_params Spec_array Spec_light Spec_simple Spec_ttv Spec_undef Spec_ravel
  Ex_orbit Ex_system Ex_compose L_ttv6 L_simple2 L_reshape L_undef Ex_stack Ex_undef L_ravel3.
Import ListNotations.
Open Scope R_scope.

(** the times [[0, 1, 2], [3, 4, 5]] *)
Definition two_rows : tens := mkA (Ok [3; 2]%nat) (fun i => Fin (INR (i 0 + 3 * i 1)%nat)).
Lemma rows_list : same_list [3; 2]%nat two_rows [6]%nat (vector 6 INR) /\ aget two_rows (cons_ix 2 (cons_ix 1 ix0)) = Fin (INR 5).
Proof.
  split; [split|]; try reflexivity.
  - intros s Hs i i' Hi. injection Hs as <-. cbn [aget two_rows]. rewrite (Hi 0%nat), (Hi 1%nat) by (cbn; lia). reflexivity.
  - apply L_transit6.vector_is.
  - intros q Hq. change (prod [3; 2]%nat) with 6%nat in Hq. do 6 (destruct q as [|q]; [reflexivity|]). lia.
Qed.
Lemma ravel_example : exists os o, system ek 2 (ex_sys_args 2 ex_bs) (fun j => ex_b_args (ex_bs j)) os /\ planet_args 2 (ex_sys_args 2 ex_bs) /\
  kep_init ek (ex_sys_args 2 ex_bs) = Ok o /\ same_list [3; 2]%nat two_rows [6]%nat (vector 6 INR) /\ aget two_rows (cons_ix 2 (cons_ix 1 ix0)) = Fin (INR 5) /\
  forall cp, exists X X',
    get_light_curve (ld_init (Fin (3 / 10)) (Fin (2 / 10))) (Some (kep_api ek (lift_cp cp) o)) (Some (vector 2 (fun _ => 1 / 10))) (Some two_rows) (Some (scalar (1 / 10))) 7 0 (Some false) false = Ok X /\
    get_light_curve (ld_init (Fin (3 / 10)) (Fin (2 / 10))) (Some (kep_api ek (lift_cp cp) o)) (Some (vector 2 (fun _ => 1 / 10))) (Some (vector 6 INR)) (Some (scalar (1 / 10))) 7 0 (Some false) false = Ok X' /\
    ash X = Ok [2; 3; 2]%nat /\ ash X' = Ok [2; 6]%nat /\ aget X (cons_ix 1 (cons_ix 2 (cons_ix 1 ix0))) = aget X' (at_tp 5 1) /\
    get_light_curve (ld_init (Fin (3 / 10)) (Fin (2 / 10))) (Some (kep_api ek (lift_cp cp) o)) (Some (vector 2 (fun _ => 1 / 10))) (Some two_rows) (Some (scalar (1 / 10))) 7 0 None false = Err IndexErr.
Proof.
  destruct undef_example as (os & o & A & B & C & _). exists os, o. split; [exact A|]. split; [exact B|]. split; [exact C|].
  split; [apply rows_list|]. split; [apply rows_list|]. intro cp.
  assert (Hs : same_exposures [3; 2]%nat (Some (scalar (1 / 10))) [6]%nat (Some (scalar (1 / 10)))).
  { left. split; try reflexivity; intros s _ i i' _; reflexivity. }
  destruct (ravel_curve_kepler ek 2 (ex_sys_args 2 ex_bs) o (ld_init (Fin (3 / 10)) (Fin (2 / 10))) (vector 2 (fun _ => 1 / 10)) [2%nat] (Some false) false cp B C eq_refl eq_refl eq_refl
    [3; 2]%nat two_rows _ [6]%nat (vector 6 INR) _ 7%Z 0%Z (proj1 rows_list) Hs) as (X & X' & E & E' & S1 & S2 & V); [lia|lia|].
  exists X, X'. split; [exact E|]. split; [exact E'|]. split; [exact S1|]. split; [exact S2|]. split.
  { specialize (V 11%nat ltac:(cbn; lia)). unfold flat in V. rewrite S1, S2 in V. exact V. }
  apply (ravel_default (ld_init (Fin (3 / 10)) (Fin (2 / 10))) 2 [3; 2]%nat two_rows (Some (scalar (1 / 10))) (vector 2 (fun _ => 1 / 10)) [2%nat] 7 0 None) with (x := ex_sys_args 2 ex_bs); try reflexivity; try assumption.
  - cbn. lia.
  - split; [intros s _ i i' _; reflexivity|left; reflexivity].
Qed.
Lemma ravel_others : (exists o os, consts_ok ek /\ ttv_init ek ex_x = Ok o /\ ttv_system ek 2 o os ex_tts) /\
  (simple_system 1 ex_one_simple (fun _ => ex_simple (1 / 2)) /\ simple_ok (ex_simple (1 / 2))) /\
  same_list [3; 2]%nat two_rows [6]%nat (vector 6 INR) /\ same_exposures [3; 2]%nat (Some two_rows) [6]%nat (Some (vector 6 INR)) /\ opt_per_planet 2 (Some (scalar (1 / 10))).
Proof.
  destruct undef_others as (A & B & _). split; [exact A|]. split; [exact B|]. split; [apply rows_list|]. split; [right; apply rows_list|].
  split; [intros s _ i i' _; reflexivity|left; reflexivity].
Qed.
