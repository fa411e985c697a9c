(** * Orbits that run backwards: cases *)
From Coq Require Import Reals Lra Lia Bool List Arith ZArith Psatz.
From Verif Require Import Num CoreOps Inst CoreFlux M_units M_kepler M_fin M_tensor M_simple M_ttv M_limbdark M_secondary
  Spec_orbit Spec_params Spec_array Spec_light Spec_secondary Spec_delay Spec_sym Spec_back L_real L_orbit L_params4 L_motion L_pmotion5 L_transit L_light7 L_light8 L_light9 L_second2
  L_back4 Ex_orbit Ex_system Ex_reach Ex_delay Ex_sym.
Import ListNotations.
Open Scope R_scope.

(** two eccentric planets with argument of periastron w and mid-transit t0 *)
Definition ex_back_args (w t0 : R) : kargs R :=
  {| ka_period := Some (plain 10); ka_a := None; ka_t0 := Some t0; ka_tper := None;
     ka_incl := Some (3 / 2); ka_b := None; ka_duration := None; ka_ecc := Some (3 / 10);
     ka_omega := Some w; ka_sin_omega := None; ka_cos_omega := None; ka_Omega := Some (7 / 10);
     ka_m_planet := Some (plain (1 / 2)); ka_m_star := Some (plain 1); ka_r_star := Some (plain 1);
     ka_rho_star := None; ka_ror := None; ka_m_planet_units := None; ka_rho_star_units := None |}.
Definition ex_back_sys (n : nat) (w t0 : R) : kargs tens :=
  {| ka_period := Some (plain (vector n (fun _ => 10))); ka_a := None; ka_t0 := Some (scalar t0); ka_tper := None;
     ka_incl := Some (scalar (3 / 2)); ka_b := None; ka_duration := None; ka_ecc := Some (scalar (3 / 10));
     ka_omega := Some (scalar w); ka_sin_omega := None; ka_cos_omega := None; ka_Omega := Some (scalar (7 / 10));
     ka_m_planet := Some (plain (scalar (1 / 2))); ka_m_star := Some (plain (scalar 1)); ka_r_star := Some (plain (vector n (fun _ => 1)));
     ka_rho_star := None; ka_ror := None; ka_m_planet_units := None; ka_rho_star_units := None |}.
Lemma back_batch n w t0 : batch n (ex_back_sys n w t0) (fun _ => ex_back_args w t0).
Proof.
  split.
  - constructor; cbn; try exact I; try reflexivity; first [apply vector_pp|apply scalar_pp|left; reflexivity].
  - intros j Hj. assert (V : forall v, aget (vector n v) (at_planet j) = Fin (v j)) by (intro v; apply (proj2 (L_transit6.vector_values n v) j Hj)).
    unfold args_at, fin_args, map_args, ex_back_sys, ex_back_args. cbn [ka_period ka_a ka_t0 ka_tper ka_incl ka_b ka_duration ka_ecc ka_omega ka_sin_omega ka_cos_omega ka_Omega ka_m_planet ka_m_star ka_r_star ka_rho_star ka_ror ka_m_planet_units ka_rho_star_units option_map]. unfold map_qty, plain. cbn [qv qu]. rewrite !V. reflexivity.
Qed.
Lemma back_one n w t0 o : kep_init ek (ex_back_sys n w t0) = Ok o -> one_each n (o_r_star o).
Proof. intro H. apply (f_equal (fun r => match r with Ok o => o_r_star o | Err _ => scalar 0 end)) in H. rewrite <- H. left. reflexivity. Qed.
Lemma ex_back w t0 : exists o, kep_init ek (ex_back_args w t0) = Ok o /\ physical o /\ ecc_of o = 3 / 10 /\ o_ecc o <> None /\ o_t0 o = t0 /\ o_period o = 10.
Proof.
  eexists. split; [reflexivity|]. split; [|cbn; repeat split; try lra; discriminate].
  constructor; cbn; try lra.
  - apply Rpowr_pos. assert (H := PI_RGT_0). apply Rdiv_lt_0_compat; nra.
  - apply COS_bound.
  - intros d Hd. inversion Hd. cbn. lra.
  - intros d Hd. inversion Hd. cbn. generalize (sin2_cos2' w). lra.
Qed.
Lemma back_example : exists os o, disk_flux (3 / 10) (2 / 10) <> 0 /\ consts_ok ek /\
  system ek 2 (ex_back_sys 2 1 2) (fun _ => ex_back_args 1 2) os /\ kep_init ek (ex_back_sys 2 1 2) = Ok o /\
  (forall j, (j < 2)%nat -> physical (os j) /\ ecc_of (os j) = 3 / 10 /\ o_ecc (os j) <> None) /\
  batch 2 (ex_back_sys 2 (PI - 1) (2 * 5 - 2)) (fun j => backwards (ex_back_args 1 2) (2 * 5 - o_t0 (os j))) /\
  (forall o', kep_init ek (ex_back_sys 2 (PI - 1) (2 * 5 - 2)) = Ok o' -> one_each 2 (o_r_star o')) /\
  planet_values 2 (vector 2 (fun _ => 1 / 10)) (fun _ => 1 / 10) /\ elements 2 (vector 2 (fun _ => 1 / 10)) (fun _ => 1 / 10) /\
  one_each 2 (vector 2 (fun _ => 1 / 10)) /\ one_each 2 (o_r_star o) /\
  is_vector 3 (vector 3 INR) /\ (forall m, (m < 3)%nat -> aget (vector 3 INR) (at_time m) = Fin (INR m)) /\
  is_vector 3 (vector 3 (fun m => 2 * 5 - INR m)) /\ (forall m, (m < 3)%nat -> aget (vector 3 (fun m => 2 * 5 - INR m)) (at_time m) = Fin (2 * 5 - INR m)) /\
  opt_exposures 3 (one_texp (Some (1 / 4))) (fun _ => 1 / 4) /\ even_rule (one_texp (Some (1 / 4))) 7 2.
Proof.
  destruct (ex_back 1 2) as (o0 & A1 & A2 & A3 & A4 & A5 & A6).
  assert (S : system ek 2 (ex_back_sys 2 1 2) (fun _ => ex_back_args 1 2) (fun _ => o0)).
  { constructor; [lia|apply back_batch|apply back_batch|intros; exact A1|intros; exact A2|intros; right; reflexivity]. }
  destruct (L_transit3.system_orbit _ _ _ _ _ ek_ok S) as (o & Ho & _). exists (fun _ => o0), o.
  split; [apply L_light9.disk_example|]. split; [exact ek_ok|]. split; [exact S|]. split; [exact Ho|]. split; [intros; split; [exact A2|split; assumption]|].
  split; [rewrite A5; exact (back_batch 2 (PI - 1) (2 * 5 - 2))|]. split; [intro o'; apply back_one|].
  split; [apply L_transit6.vector_values|]. split; [apply elements_vector|]. split; [left; reflexivity|]. split; [apply (back_one _ _ _ _ Ho)|].
  split; [apply L_transit6.vector_is|]. split; [apply L_transit6.vector_at|]. split; [apply L_transit6.vector_is|]. split; [apply L_transit6.vector_at|].
  split; [apply one_exp|]. right. right. lia.
Qed.
(** two circular planets about their common mid-transit time 2 and half a
    period later *)
Lemma circular_example : exists os o, consts_ok ek /\ system ek 2 (ex_full_sys 2 ex_bs 2 1 1 (1 / 2)) (fun j => ex_full_args (ex_bs j) 2 1 1 (1 / 2)) os /\
  kep_init ek (ex_full_sys 2 ex_bs 2 1 1 (1 / 2)) = Ok o /\
  (forall j, (j < 2)%nat -> o_ecc (os j) = None /\ (exists z : Z, 2 = o_t0 (os j) + IZR z * (o_period (os j) / 2)) /\ (exists z : Z, 7 = o_t0 (os j) + IZR z * (o_period (os j) / 2)) /\
     slow ek (os j) /\ o_sin_incl (os j) <> 0) /\
  is_vector 3 (vector 3 (fun m => 2 + INR m)) /\ (forall m, (m < 3)%nat -> aget (vector 3 (fun m => 2 + INR m)) (at_time m) = Fin (2 + INR m)) /\
  is_vector 3 (vector 3 (fun m => 2 - INR m)) /\ (forall m, (m < 3)%nat -> aget (vector 3 (fun m => 2 - INR m)) (at_time m) = Fin (2 - INR m)) /\
  batch 2 (ex_full_sys 2 ex_bs (2 * 5 - 2) 1 1 (1 / 2)) (fun j => backwards (ex_full_args (ex_bs j) 2 1 1 (1 / 2)) (2 * 5 - o_t0 (os j))).
Proof.
  destruct sym_example as (os & o & _ & E2 & E3 & E4 & E5 & _).
  assert (F : forall j, (j < 2)%nat -> o_ecc (os j) = None /\ o_t0 (os j) = 2 /\ o_period (os j) = 10 /\ 2 < o_a (os j) /\ o_r_star (os j) = 1 /\ 0 <= o_b (os j) <= 2).
  { intros j Hj. assert (Hb : 0 <= ex_bs j <= 2) by (destruct j as [|[|j]]; [| |lia]; cbn; lra). destruct (ex_b (ex_bs j) Hb) as (q & A1 & A2 & A3 & A4 & A5 & A6 & A7 & A8 & A9 & A10 & A11). apply ex_full in A1.
    assert (I := sy_init _ _ _ _ _ E3 j Hj). cbv beta in I. rewrite A1 in I. assert (q = os j) by congruence. subst q. rewrite A6. repeat split; try assumption; lra. }
  exists os, o. split; [exact E2|]. split; [exact E3|]. split; [exact E4|]. split.
  { intros j Hj. destruct (F j Hj) as (F1 & F2 & F3 & F4 & F5 & F6). split; [exact F1|]. split; [exists 0%Z; rewrite F2, F3; field|]. split; [exists 1%Z; rewrite F2, F3; lra|]. split; [apply (E5 j Hj)|].
    intro S0. assert (I := sy_init _ _ _ _ _ E3 j Hj). assert (P := sy_phys _ _ _ _ _ E3 j Hj). assert (G := kep_init_facts ek ek_ok _ _ I P).
    assert (C := of_cosi_b _ _ _ G). rewrite (of_dcosidb _ _ _ G), F5 in C. unfold ecc_of, sinw_of in C. rewrite F1 in C. assert (U := sin2_cos2' (o_incl (os j))). rewrite <- (of_cosi _ _ _ G), <- (of_sini _ _ _ G), S0 in U.
    assert (Ca : o_cos_incl (os j) * o_a (os j) = o_b (os j)) by (rewrite C; field; lra).
    assert (C1 : 0 <= o_cos_incl (os j) < 1).
    { split; [apply (Rmult_le_reg_r (o_a (os j))); lra|apply (Rmult_lt_reg_r (o_a (os j))); lra]. }
    nra. }
  split; [apply L_transit6.vector_is|]. split; [apply L_transit6.vector_at|]. split; [apply L_transit6.vector_is|]. split; [apply L_transit6.vector_at|].
  destruct (full_batch 2 ex_bs (2 * 5 - 2) 1 1 (1 / 2)) as [B1 B2]. split; [exact B1|]. intros j Hj. rewrite (B2 j Hj), (proj1 (proj2 (F j Hj))). reflexivity.
Qed.
(** one point at the beginning of the exposure: the light curve of a circular
    orbit is not symmetric *)
Lemma one_sided : forall osam order cp, (0 <= osam <= 1)%Z -> (order = 1 \/ order = 2)%Z -> 
  exists o X X' f f', kep_init ek (ex_full_sys 1 (fun _ => 0) 2 1 1 (1 / 2)) = Ok o /\
  get_light_curve (ld_init (Fin (3 / 10)) (Fin (2 / 10))) (Some (kep_api ek cp o)) (Some (vector 1 (fun _ => 1 / 10))) (Some (vector 1 (fun _ => 2 + 5 / 4))) (one_texp (Some (5 / 2))) osam order (Some false) false = Ok X /\
  get_light_curve (ld_init (Fin (3 / 10)) (Fin (2 / 10))) (Some (kep_api ek cp o)) (Some (vector 1 (fun _ => 1 / 10))) (Some (vector 1 (fun _ => 2 - 5 / 4))) (one_texp (Some (5 / 2))) osam order (Some false) false = Ok X' /\
  light_table 1 1 X f /\ light_table 1 1 X' f' /\ f 0%nat 0%nat < 0 /\ f' 0%nat 0%nat = 0.
Proof.
  intros osam order cp Ho Hor. destruct (ex_b 0 ltac:(lra)) as (o0 & A1 & A2 & A3 & A4 & A5 & A6 & A7 & A8 & A9 & A10 & A11). apply ex_full in A1.
  assert (S : system ek 1 (ex_full_sys 1 (fun _ => 0) 2 1 1 (1 / 2)) (fun _ => ex_full_args 0 2 1 1 (1 / 2)) (fun _ => o0)).
  { constructor; [lia|apply (full_batch 1 (fun _ => 0))|apply (full_batch 1 (fun _ => 0))|intros; exact A1|intros; exact A2|intros; left; reflexivity]. }
  destruct (L_transit3.system_orbit _ _ _ _ _ ek_ok S) as (o & Hoo & _).
  destruct (stencil_exists osam order (proj1 Ho)) as (nodes & weights & St); [lia|].
  assert (Ee : exposures 1 (scalar (5 / 2)) (fun _ => 5 / 2)) by exact (one_exp 1 (Some (5 / 2))).
  destruct (lc_kepler_exposed (3 / 10) (2 / 10) ek 1 _ _ _ o cp (vector 1 (fun _ => 1 / 10)) (fun _ => 1 / 10) 1 (vector 1 (fun _ => 2 + 5 / 4)) (fun _ => 2 + 5 / 4) (scalar (5 / 2)) (fun _ => 5 / 2) osam order nodes weights
    disk_example ek_ok S Hoo (elements_vector _ _) (L_transit6.vector_is _ _) (L_transit6.vector_at _ _) Ee St) as (X & EX & TX).
  destruct (lc_kepler_exposed (3 / 10) (2 / 10) ek 1 _ _ _ o cp (vector 1 (fun _ => 1 / 10)) (fun _ => 1 / 10) 1 (vector 1 (fun _ => 2 - 5 / 4)) (fun _ => 2 - 5 / 4) (scalar (5 / 2)) (fun _ => 5 / 2) osam order nodes weights
    disk_example ek_ok S Hoo (elements_vector _ _) (L_transit6.vector_is _ _) (L_transit6.vector_at _ _) Ee St) as (X' & EX' & TX').
  exists o, X, X'. eexists _, _. split; [exact Hoo|]. split; [exact EX|]. split; [exact EX'|]. split; [exact TX|]. split; [exact TX'|]. cbv beta.
  assert (On : order <> 0%Z) by lia. rewrite !(one_node osam order nodes weights _ _ _ St On (proj2 Ho)).
  replace (2 + 5 / 4 - 5 / 2 / 2) with 2 by field. replace (2 - 5 / 4 - 5 / 2 / 2) with (- (1 / 2)) by field. unfold flux_at. rewrite A9.
  assert (G := circ_geom ek ek_ok _ o0 2 A1 A2 A5). assert (G' := circ_geom ek ek_ok _ o0 (- (1 / 2)) A1 A2 A5). cbv zeta in G, G'. rewrite A7, A8, A6 in G, G'.
  replace (2 * PI * (2 - 2) / 10) with 0 in G by field. replace (2 * PI * (- (1 / 2) - 2) / 10) with (- (PI / 2)) in G' by field. rewrite sin_0, cos_0 in G. rewrite sin_neg, cos_neg, sin_PI2, cos_PI2 in G'.
  destruct G as [G1 G2]. destruct G' as [G3 G4]. assert (L := bright_example). destruct L as (_ & _ & L & _).
  assert (SI : o_sin_incl o0 <> 0).
  { assert (F := kep_init_facts ek ek_ok _ o0 A1 A2). assert (C := of_cosi_b _ _ _ F). rewrite A6, Rmult_0_r in C. assert (U := sin2_cos2' (o_incl o0)). rewrite <- (of_cosi _ _ _ F), <- (of_sini _ _ _ F), C in U. intro Z. rewrite Z in U. lra. }
  split.
  - apply L_light1.rel_flux_in; [exact L|lra| |].
    + change (pos ek o0 Relative 2 None false) with (get_relative_position ek o0 (kep_warp o0) 2 None false). rewrite G1. replace (_ + _) with 0 by ring. rewrite sqrt_0. unfold Rdiv. rewrite Rmult_0_l, Rabs_R0. lra.
    + change (pos ek o0 Relative 2 None false) with (get_relative_position ek o0 (kep_warp o0) 2 None false). rewrite G2. assert (0 < o_a o0 * o_sin_incl o0) by (apply Rmult_lt_0_compat; lra). lra.
  - apply L_light1.rel_flux_out; [exact disk_example|]. right. change (pos ek o0 Relative (- (1 / 2)) None false) with (get_relative_position ek o0 (kep_warp o0) (- (1 / 2)) None false). rewrite G4. lra.
Qed.
