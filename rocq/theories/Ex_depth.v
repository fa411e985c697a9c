(** * The depth of transits: cases *)
From Coq Require Import Reals Lra Lia Bool List Arith ZArith Psatz.
From Verif Require Import Num CoreOps Inst CoreFlux M_units M_kepler M_fin M_tensor M_simple M_limbdark
  Spec_orbit Spec_params Spec_array Spec_simple Spec_light Spec_delay Spec_sym Spec_depth L_real L_orbit L_params4 L_transit L_light1 L_light4 L_light7 L_light8 L_light9 L_depth2
  Ex_orbit Ex_system Ex_sym L_simple2.
Import ListNotations.
Open Scope R_scope.

Lemma dark_example : 0 < disk_flux (3 / 10) (2 / 10) /\ bright (3 / 10) (2 / 10) /\ darkening (3 / 10) (2 / 10) /\ 0 <= 1 / 2 /\ 0 <= 1 / 10 /\ 1 / 2 + 1 / 10 <= 1 /\ 0 < 1.
Proof.
  split; [rewrite disk_value; apply Rmult_lt_0_compat; [apply PI_RGT_0|lra]|]. split; [apply bright_example|]. split; [apply darkening_iff; lra|]. lra.
Qed.
Lemma full_system bs : (forall j, (j < 2)%nat -> 0 <= bs j <= 2) -> exists os o, system ek 2 (ex_full_sys 2 bs 2 1 1 (1 / 2)) (fun j => ex_full_args (bs j) 2 1 1 (1 / 2)) os /\
  kep_init ek (ex_full_sys 2 bs 2 1 1 (1 / 2)) = Ok o /\
  forall j, (j < 2)%nat -> o_ecc (os j) = None /\ o_t0 (os j) = 2 /\ o_period (os j) = 10 /\ o_b (os j) = bs j /\ 2 < o_a (os j) /\ o_r_star (os j) = 1 /\ 0 <= o_sin_incl (os j).
Proof.
  intro Hb. destruct (ex_b (bs 0%nat) (Hb 0%nat ltac:(lia))) as (o0 & A1 & A2 & A3 & A4 & A5 & A6 & A7 & A8 & A9 & A10 & A11). destruct (ex_b (bs 1%nat) (Hb 1%nat ltac:(lia))) as (o1 & B1 & B2 & B3 & B4 & B5 & B6 & B7 & B8 & B9 & B10 & B11). apply ex_full in A1. apply ex_full in B1.
  assert (S : system ek 2 (ex_full_sys 2 bs 2 1 1 (1 / 2)) (fun j => ex_full_args (bs j) 2 1 1 (1 / 2)) (fun j => match j with O => o0 | _ => o1 end)).
  { constructor; [lia|apply full_batch|apply full_batch| | |intros; left; reflexivity]; intros [|[|j]] Hj; try lia; assumption. }
  destruct (L_transit3.system_orbit _ _ _ _ _ ek_ok S) as (o & Ho & _). eexists _, o. split; [exact S|]. split; [exact Ho|]. intros [|[|j]] Hj; try lia; cbv beta iota; (split; [assumption|]; split; [assumption|]; split; [assumption|]; split; [assumption|]; split; [assumption|]; split; assumption).
Qed.
(** two circular planets, one across the middle of the star; a second system
    differs in the impact parameters *)
Definition ex_low (j : nat) : R := match j with O => 0 | _ => 1 / 2 end.
Definition ex_high (j : nat) : R := match j with O => 1 / 4 | _ => 9 / 10 end.
Lemma depth_example : exists os o os' o', consts_ok ek /\
  system ek 2 (ex_full_sys 2 ex_low 2 1 1 (1 / 2)) (fun j => set_incl (ex_full_args 0 2 1 1 (1 / 2)) (Some (ex_low j)) None) os /\ kep_init ek (ex_full_sys 2 ex_low 2 1 1 (1 / 2)) = Ok o /\
  system ek 2 (ex_full_sys 2 ex_high 2 1 1 (1 / 2)) (fun j => set_incl (ex_full_args 0 2 1 1 (1 / 2)) (Some (ex_high j)) None) os' /\ kep_init ek (ex_full_sys 2 ex_high 2 1 1 (1 / 2)) = Ok o' /\
  (forall j, (j < 2)%nat -> ka_ecc (ex_full_args 0 2 1 1 (1 / 2)) = None /\ ka_duration (ex_full_args 0 2 1 1 (1 / 2)) = None /\ Rabs (ex_low j) <= Rabs (ex_high j)) /\
  (forall j, (j < 2)%nat -> o_ecc (os j) = None /\ 0 <= o_sin_incl (os j) /\ 0 < o_r_star (os j)) /\
  (forall cp, answers (kep_api ek cp o) false 2 (fun j s => pos ek (os j) Relative s None false) /\ planet_numbers 2 (oa_r_star (kep_api ek cp o)) (fun j => o_r_star (os j))) /\
  elements 2 (vector 2 (fun _ => 1 / 10)) (fun _ => 1 / 10) /\ elements 2 (vector 2 (fun _ => 2 / 10)) (fun _ => 2 / 10) /\
  is_vector 3 (vector 3 (fun m => 2 + INR m / 10)) /\ (forall m, (m < 3)%nat -> aget (vector 3 (fun m => 2 + INR m / 10)) (at_time m) = Fin (2 + INR m / 10)) /\
  opt_exposures 3 (one_texp (Some (1 / 4))) (fun _ => 1 / 4) /\ (exists nodes weights, stencil 7 2 = Ok (nodes, weights)) /\
  (forall j, (j < 2)%nat -> Rabs (2 + INR 1 / 10 - (o_t0 (os j) + IZR 0 * o_period (os j))) <= Rabs (2 + INR 2 / 10 - (o_t0 (os j) + IZR 0 * o_period (os j))) <= o_period (os j) / 2) /\
  (forall j s, (j < 2)%nat -> Rabs (s - (2 + INR 0 / 10)) <= 0 / 2 -> 0 < vz (pos ek (os j) Relative s None false) /\ apart (pos ek (os j) Relative s None false) + 1 / 10 <= o_r_star (os j)).
Proof.
  assert (L : forall j, (j < 2)%nat -> 0 <= ex_low j <= 2) by (intros [|[|j]] Hj; cbn; try lra; lia). assert (H : forall j, (j < 2)%nat -> 0 <= ex_high j <= 2) by (intros [|[|j]] Hj; cbn; try lra; lia).
  destruct (full_system ex_low L) as (os & o & S & Ho & F). destruct (full_system ex_high H) as (os' & o' & S' & Ho' & F').
  exists os, o, os', o'. split; [exact ek_ok|]. split; [exact S|]. split; [exact Ho|]. split; [exact S'|]. split; [exact Ho'|].
  split; [intros [|[|j]] Hj; try lia; (split; [reflexivity|]; split; [reflexivity|]; cbn; rewrite !Rabs_pos_eq; lra)|].
  split; [intros j Hj; destruct (F j Hj) as (F1 & F2 & F3 & F4 & F5 & F6 & F7); split; [exact F1|]; split; [exact F7|lra]|].
  split; [intro cp; apply (kepler_answers ek 2 _ _ os o cp ek_ok S Ho)|].
  split; [apply elements_vector|]. split; [apply elements_vector|]. split; [apply L_transit6.vector_is|]. split; [apply L_transit6.vector_at|]. split; [apply one_exp|]. split; [apply stencil_exists; [lia|right; right; reflexivity]|].
  split.
  - intros j Hj. destruct (F j Hj) as (F1 & F2 & F3 & F4 & F5 & F6 & F7). rewrite F2, F3. cbn. rewrite !Rabs_pos_eq; lra.
  - intros j s Hj Hs. destruct (F j Hj) as (F1 & F2 & F3 & F4 & F5 & F6 & F7). cbn in Hs. assert (E : s = 2) by (apply Rabs_le_between in Hs; lra). subst s.
    assert (Q := sy_init _ _ _ _ _ S j Hj). assert (ph := sy_phys _ _ _ _ _ S j Hj). destruct (circ_geom ek ek_ok _ (os j) 2 Q ph F1) as [G1 G2]. cbv zeta in G1, G2. rewrite F2, F3 in G1, G2.
    replace (2 * PI * (2 - 2) / 10) with 0 in G1, G2 by field. rewrite sin_0, cos_0 in G1. rewrite cos_0 in G2. unfold apart. change (pos ek (os j) Relative 2 None false) with (get_relative_position ek (os j) (kep_warp (os j)) 2 None false).
    rewrite G1, G2, F6, F4. split.
    + assert (Sn : 0 < o_sin_incl (os j)).
      { destruct F7 as [F7|F7]; [exact F7|exfalso]. assert (F0 := kep_init_facts ek ek_ok _ _ Q ph). assert (C := acosi_b ek ek_ok _ (os j) Q ph F1). rewrite F6, F4 in C. assert (U := sin2_cos2' (o_incl (os j))). rewrite <- (of_cosi _ _ _ F0), <- (of_sini _ _ _ F0), <- F7 in U.
        assert (Lj := L j Hj). assert (Cb : -1 < o_cos_incl (os j) < 1). { assert (ex_low j <= 1) by (destruct j as [|[|j]]; cbn; lra). split; apply (Rmult_lt_reg_l (o_a (os j))); lra. } nra. }
      rewrite Rmult_1_r. apply Rmult_lt_0_compat; lra.
    + replace (o_a (os j) * o_a (os j) * (0 * 0) + ex_low j * ex_low j * (1 * 1) * (1 * 1)) with (ex_low j * ex_low j) by ring. rewrite sqrt_square by apply (L j Hj). destruct j as [|[|j]]; cbn; lra.
Qed.
Lemma simple_depth_example : simple_system 2 (ex_simples (fun j => INR j / 2)) (fun j => ex_simple (INR j / 2)) /\ (forall j, (j < 2)%nat -> simple_ok (ex_simple (INR j / 2))) /\
  (forall j, (j < 2)%nat -> Rabs (smid (ex_simple (INR j / 2)) 3 + 1 / 10 - smid (ex_simple (INR j / 2)) 3) <= Rabs (smid (ex_simple (INR j / 2)) 5 - 2 / 10 - smid (ex_simple (INR j / 2)) 5) <= sa_period (ex_simple (INR j / 2)) / 2).
Proof.
  split; [apply exposures_example|]. split; [apply exposures_example|]. intros j Hj. unfold smid. cbn. replace (_ - _) with (1 / 10) by ring. match goal with |- _ <= Rabs ?e <= _ => replace e with (- (2 / 10)) by ring end. rewrite Rabs_Ropp, !Rabs_pos_eq by lra. lra.
Qed.
