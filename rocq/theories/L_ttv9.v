(** * TTVOrbit light curves: an example *)
From Coq Require Import Reals List Bool Arith ZArith Lra Lia Psatz Sorted String.
From Verif Require Import Num CoreOps Inst CoreFlux M_units M_kepler M_kwargs M_fin M_tensor M_ttv M_limbdark Spec_orbit Spec_params Spec_array Spec_ttv Spec_light
  L_real L_orbit L_params3 L_transit L_transit6 L_array L_light7 L_light8 L_light9 L_ttv3 L_ttv6 L_ttv7 L_ttv8 Ex_orbit Ex_system.
Import ListNotations.
Open Scope R_scope.

Lemma ttv_light_example : exists o os near, disk_flux (3 / 10) (2 / 10) <> 0 /\ consts_ok ek /\
  ttv_init ek ex_x = Ok o /\ ttv_system ek 2 o os ex_tts /\ nearest_transits 2 ex_tts near /\
  elements 2 (vector 2 (fun _ => 1 / 10)) (fun _ => 1 / 10) /\ planet_values 2 (scalar (1 / 10)) (fun _ => 1 / 10) /\
  opt_values 2 (Some (scalar 1)) (fun _ => 1) /\ is_vector 3 (vector 3 INR) /\
  (forall m, (m < 3)%nat -> aget (vector 3 INR) (at_time m) = Fin (INR m)) /\
  (forall j, (j < 2)%nat -> o_ecc (os j) = None /\ 0 <= 1 / 10 /\ o_r_star (os j) + 1 / 10 < o_a (os j) /\ 0 <= o_sin_incl (os j)) /\
  consecutive (ex_tts 0) 2 (25 / 2) /\
  transits ek (os 0%nat) (1 / 10) (orbit_time os near 0 (INR 2)) /\ ~ transits ek (os 1%nat) (1 / 10) (orbit_time os near 1 (INR 2)).
Proof.
  destruct ex_ttv as (o & os0 & kok & Ho & Sy0 & V1 & V2). destruct ex_tsystem as (os & Sy & F).
  assert (sys : ttv_system ek 2 o os ex_tts).
  { destruct Sy0 as [M _ A I P]. constructor; try assumption. exists (ex_targs 2 ex_bs), (fun j => ex_b_args (ex_bs j)). split; [|exact Sy].
    clear - Ho. unfold ttv_init in Ho. cbn [ta_ttvs ta_kw ta_inds ex_x targs_of] in Ho.
    change (kep_call ek (ex_tkw 2 ex_bs)) with (kep_init ek (ex_targs 2 ex_bs)) in Ho. destruct (kep_init ek (ex_targs 2 ex_bs)) as [ob|]; [|discriminate Ho].
    cbn [rbind] in Ho. destruct (imap _ ex_ttvs) as [times|] in Ho; [|discriminate Ho]. cbn [rbind] in Ho.
    apply L_ttv3.finish_ok in Ho. f_equal. symmetry. apply Ho. }
  destruct (near_exists _ _ _ _ _ sys) as (near & Hn). exists o, os, near.
  split; [apply disk_example|]. split; [exact kok|]. split; [exact Ho|]. split; [exact sys|]. split; [exact Hn|]. split; [apply elements_vector|].
  split; [apply scalar_values|]. split; [apply scalar_values|]. split; [exact V1|]. split; [exact V2|].
  assert (F0 := F 0%nat ltac:(lia)). assert (F1 := F 1%nat ltac:(lia)).
  destruct F0 as (A3 & A4 & A1 & A2 & A5 & A6 & A7). destruct F1 as (B3 & B4 & B1 & B2 & B5 & B6 & B7). cbn in A2, B2.
  split; [intros [|[|j]] Hj; [| |lia]; cbn; repeat split; lra || assumption|].
  split; [exists 0%nat; split; reflexivity|].
  assert (I0 := sy_init _ _ _ _ _ Sy 0%nat ltac:(lia)). assert (P0 := sy_phys _ _ _ _ _ Sy 0%nat ltac:(lia)).
  assert (I1 := sy_init _ _ _ _ _ Sy 1%nat ltac:(lia)). assert (P1 := sy_phys _ _ _ _ _ Sy 1%nat ltac:(lia)).
  split.
  - assert (E : near 0%nat (INR 2) = 2).
    { destruct (Hn 0%nat (INR 2) ltac:(lia)) as [_ Q]. destruct (Q 2 ltac:(left; reflexivity)) as [Q1 _].
      replace (INR 2) with 2 in * by (cbn; lra). replace (2 - 2) with 0 in Q1 by ring. rewrite Rabs_R0 in Q1. apply Rabs_le_between in Q1. lra. }
    unfold orbit_time. rewrite E, A4. replace (INR 2) with 2 by (cbn; lra). replace (2 + (2 - 2)) with 2 by ring.
    assert (C := kep_init_facts ek ek_ok _ _ I0 P0).
    assert (D := does_transit ek ek_ok _ _ I0 P0 A1 (1 / 10) ltac:(lra) false). rewrite A4, Rplus_0_r in D.
    apply D; [rewrite A2, A5, Rabs_R0; lra|].
    destruct (Rle_lt_or_eq_dec _ _ A7) as [Hs|Hs]; [exact Hs|]. exfalso.
    assert (Q := of_cosi_b _ _ _ C). rewrite A2, Rmult_0_r, (of_cosi _ _ _ C) in Q.
    assert (Q1 := of_sini _ _ _ C). assert (Q2 := sin2_cos2' (o_incl (os 0%nat))). rewrite Q, <- Q1, <- Hs in Q2. lra.
  - apply (no_transit ek ek_ok _ _ I1 P1 B1 (1 / 10) ltac:(lra)). rewrite B2, B5, Rabs_pos_eq; lra.
Qed.
