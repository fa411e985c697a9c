(** * Examples for C109 *)
From Coq Require Import Reals List Lra Lia ZArith Arith Sorted.
From Verif Require Import Num CoreOps Inst CoreFlux M_units M_kepler M_fin M_tensor M_simple M_ttv M_limbdark Spec_orbit Spec_params Spec_array Spec_light Spec_simple Spec_ttv Spec_undef Spec_split
  L_real L_orbit L_params3 L_params4 L_fl L_fl2 L_fl3 L_tens L_shape L_transit L_transit2 L_transit3 L_transit4 L_transit5 L_transit6 L_pmotion5 L_pmotion3 L_stack Ex_orbit Ex_system L_light8 L_light9 L_ttv6 L_simple2 Ex_compose Ex_accuracy L_ptransit L_undef L_undef2 L_undef3 Ex_stack Ex_undef L_split.
Import ListNotations.
Open Scope R_scope.

Lemma cut_times : joined 2 (vector 2 INR) 1 (vector 1 (fun _ => 2)) (vector 3 INR).
Proof.
  constructor; try apply vector_is.
  - intros [|[|m]] Hm; [reflexivity|reflexivity|lia].
  - intros [|m] Hm; [|lia]. cbn. f_equal; lra.
Qed.
(** a transit at the third time: the list of the joined times is that of the second part, shifted *)
Lemma cut_example : exists os o, system ek 2 (ex_sys_args 2 ex_bs) (fun j => ex_b_args (ex_bs j)) os /\ planet_args 2 (ex_sys_args 2 ex_bs) /\ kep_init ek (ex_sys_args 2 ex_bs) = Ok o /\
  joined 2 (vector 2 INR) 1 (vector 1 (fun _ => 2)) (vector 3 INR) /\
  per_planet 2 (scalar (1 / 10)) /\ opt_per_planet 2 (Some (scalar (1 / 10))) /\ single (Some (scalar (1 / 10))) /\ exposure_values 3 (Some (scalar (1 / 10))) (fun _ => Fin (1 / 10)) /\
  forall cp, exists l l', kep_in_transit o (kep_warp o) (lift_cp cp) (vector 2 INR) (scalar (1 / 10)) None false = Ok l /\
    kep_in_transit o (kep_warp o) (lift_cp cp) (vector 1 (fun _ => 2)) (scalar (1 / 10)) None false = Ok l' /\ l' = [0%nat] /\
    kep_in_transit o (kep_warp o) (lift_cp cp) (vector 3 INR) (scalar (1 / 10)) None false = Ok (l ++ [2%nat]).
Proof.
  destruct transit_example as (os & K & S & V & _ & _ & _ & G & T & _). destruct (system_orbit ek 2 _ _ os ek_ok S) as (o & Ho & _). exists os, o.
  split; [exact S|]. split; [apply ex_sys_planet|]. split; [exact Ho|]. split; [exact cut_times|]. split; [apply scalar_pp|]. split; [apply scalar_pp|].
  destruct gap_ok as (_ & _ & _ & _ & _ & G6 & G7 & G8). split; [exact G8|]. split; [exact G6|]. intro cp.
  destruct (join_found ek 2 (ex_sys_args 2 ex_bs) o cp (scalar (1 / 10)) None 2 (vector 2 INR) 1 (vector 1 (fun _ => 2)) (vector 3 INR) ltac:(lia) (ex_sys_planet _ _) Ho (scalar_pp _ _) I G7 cut_times) as (l & l' & E1 & E2 & E3).
  exists l, l'. split; [exact E1|]. split; [exact E2|].
  destruct (in_transit_circ ek 2 1 (ex_sys_args 2 ex_bs) (fun j => ex_b_args (ex_bs j)) os (scalar (1 / 10)) (fun _ => 1 / 10) None (fun _ => 0) (vector 1 (fun _ => 2)) (fun _ => 2) cp ek_ok S V) as (o' & l2 & H1 & H2 & H3 & H4).
  { intro j. reflexivity. } { intros. lra. } { apply vector_is. } { apply (vector_at 1 (fun _ => 2)). } { exact G. }
  rewrite Ho in H1. apply Ok_inj in H1. subst o'. rewrite E2 in H2. injection H2 as <-.
  assert (L0 : In 0%nat l'). { apply H4. split; [lia|]. exists 0%nat, 2. split; [lia|]. split; [rewrite Rminus_eq_0, Rabs_R0; lra|]. replace (INR 2) with 2 in T by (cbn; lra). exact T. }
  assert (L1 : l' = [0%nat]).
  { assert (Q : forall m, In m l' -> m = 0%nat) by (intros m Hm; apply H4 in Hm; lia). clear H4 E2 E3.
    destruct l' as [|a [|b q]]; [destruct L0| |].
    - rewrite (Q a (or_introl eq_refl)). reflexivity.
    - exfalso. apply StronglySorted_inv in H3. destruct H3 as [_ H3]. rewrite Forall_forall in H3. specialize (H3 b (or_introl eq_refl)).
      rewrite (Q a), (Q b) in H3; [lia|right; left; reflexivity|left; reflexivity]. }
  split; [exact L1|]. rewrite L1 in E3. exact E3.
Qed.
Lemma cut_others : (exists o os, consts_ok ek /\ ttv_init ek ex_x = Ok o /\ ttv_system ek 2 o os ex_tts) /\
  (simple_system 1 ex_one_simple (fun _ => ex_simple (1 / 2)) /\ simple_ok (ex_simple (1 / 2))) /\
  joined 2 (vector 2 INR) 1 (vector 1 (fun _ => 2)) (vector 3 INR) /\ per_planet 2 (vector 2 (fun _ => 1 / 10)) /\ per_planet 1 (scalar (1 / 10)) /\ opt_per_planet 2 (Some (scalar (1 / 10))) /\ single (Some (scalar (1 / 10))).
Proof.
  destruct undef_others as (A & B & _). split; [exact A|]. split; [exact B|]. split; [exact cut_times|]. split; [apply vector_pp|]. split; [apply scalar_pp|]. split; [apply scalar_pp|].
  intros a H. injection H as <-. reflexivity.
Qed.
(** with one exposure time per observation the list of an observation depends on the exposure times of the others *)
Lemma cut_exposures : exists (x : kargs tens) o (ts es : nat -> R), kep_init ek x = Ok o /\ (forall m, 0 <= es m) /\
  forall cp, exists l l', kep_in_transit o (kep_warp o) (lift_cp cp) (vector 2 ts) (scalar 0) (Some (vector 2 es)) false = Ok l /\
    kep_in_transit o (kep_warp o) (lift_cp cp) (vector 1 ts) (scalar 0) (Some (vector 1 es)) false = Ok l' /\ In 0%nat l /\ ~ In 0%nat l'.
Proof.
  destruct ex_scalar as (o1 & S & A1 & A2 & A3 & A4 & A5 & A6 & A7). destruct (system_orbit ek 1 _ _ _ ek_ok S) as (o & Ho & _).
  assert (I0 := sy_init _ _ _ _ _ S 0%nat ltac:(lia)). assert (P0 := sy_phys _ _ _ _ _ S 0%nat ltac:(lia)). cbn beta in I0, P0.
  set (es := fun j : nat => match j with O => 0 | _ => 5 end). set (ts := fun _ : nat => 9 / 2). assert (Es : forall m, 0 <= es m) by (intros [|m]; cbn; lra).
  exists (ex_scalar_args 0), o, ts, es. split; [exact Ho|]. split; [exact Es|]. intro cp.
  assert (G : 0 <= 0 /\ o_r_star o1 + 0 < o_a o1 /\ 0 <= o_sin_incl o1) by (repeat split; lra).
  destruct (texp_one_planet ek 1 2 (ex_scalar_args 0) (fun _ => ex_b_args 0) (fun _ => o1) (scalar 0) (fun _ => 0) es (vector 2 ts) ts cp ek_ok S (scalar_values 1 0) (vector_is 2 ts) (vector_at 2 ts) ltac:(reflexivity) eq_refl G ltac:(intros; apply Es)) as (o2 & l & H1 & H2 & _ & H4).
  destruct (texp_one_planet ek 1 1 (ex_scalar_args 0) (fun _ => ex_b_args 0) (fun _ => o1) (scalar 0) (fun _ => 0) es (vector 1 ts) ts cp ek_ok S (scalar_values 1 0) (vector_is 1 ts) (vector_at 1 ts) ltac:(reflexivity) eq_refl G ltac:(intros; apply Es)) as (o3 & l' & H1' & H2' & _ & H4').
  rewrite Ho in H1. apply Ok_inj in H1. subst o2. rewrite Ho in H1'. apply Ok_inj in H1'. subst o3. exists l, l'. split; [exact H2|]. split; [exact H2'|]. split.
  - apply H4. split; [lia|]. exists 1%nat, 2. split; [lia|]. split; [unfold ts, es; apply Rabs_le; lra|].
    assert (C := kep_init_facts ek ek_ok _ _ I0 P0).
    assert (D := does_transit ek ek_ok _ _ I0 P0 A1 0 ltac:(lra) false). rewrite A4, Rplus_0_r in D.
    apply D; [rewrite A2, A5, Rabs_R0; lra|].
    destruct (Rle_lt_or_eq_dec _ _ A7) as [Hs|Hs]; [exact Hs|]. exfalso.
    assert (Q := of_cosi_b _ _ _ C). rewrite A2, Rmult_0_r, (of_cosi _ _ _ C) in Q.
    assert (Q1 := of_sini _ _ _ C). assert (Q2 := sin2_cos2' (o_incl o1)). rewrite Q, <- Q1, <- Hs in Q2. lra.
  - rewrite H4'. intros (_ & q & s & Hq & S1 & S2). replace q with 0%nat in S1 by lia. unfold es, ts in S1. replace (0 / 2) with 0 in S1 by field. apply Rabs_le_between in S1. replace s with (9 / 2) in S2 by lra.
    apply (transits_circ ek ek_ok _ _ I0 P0 A1 0 ltac:(lra)) in S2. rewrite A3, A4 in S2.
    replace (2 * PI * (9 / 2 - 2) / 10) with (PI / 2) in S2 by field. rewrite cos_PI2 in S2. lra.
Qed.
