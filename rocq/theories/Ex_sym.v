(** * A system, shifted in time, mirrored, rotated and enlarged *)
From Coq Require Import Reals Lra Lia Bool List Arith ZArith Psatz.
From Verif Require Import Num CoreOps Inst CoreFlux M_units M_kepler M_fin M_tensor M_simple M_ttv M_limbdark M_secondary
  Spec_orbit Spec_params Spec_array Spec_light Spec_secondary Spec_delay Spec_sym L_real L_orbit L_motion L_pmotion5 L_transit L_light8 L_second2
  L_clock L_mirror L_scale Ex_orbit Ex_system Ex_reach Ex_delay.
Import ListNotations.
Open Scope R_scope.

(** period 10, impact parameter b, mid-transit time t0; mass and radius of the
    star *)
Definition ex_full_args (b t0 r m mp : R) : kargs R :=
  {| ka_period := Some (plain 10); ka_a := None; ka_t0 := Some t0; ka_tper := None;
     ka_incl := None; ka_b := Some b; ka_duration := None; ka_ecc := None;
     ka_omega := None; ka_sin_omega := None; ka_cos_omega := None; ka_Omega := None;
     ka_m_planet := Some (plain mp); ka_m_star := Some (plain m); ka_r_star := Some (plain r);
     ka_rho_star := None; ka_ror := None; ka_m_planet_units := None; ka_rho_star_units := None |}.
Definition ex_full_sys (n : nat) (bs : nat -> R) (t0 r m mp : R) : kargs tens :=
  {| ka_period := Some (plain (vector n (fun _ => 10))); ka_a := None; ka_t0 := Some (scalar t0); ka_tper := None;
     ka_incl := None; ka_b := Some (vector n bs); ka_duration := None; ka_ecc := None;
     ka_omega := None; ka_sin_omega := None; ka_cos_omega := None; ka_Omega := None;
     ka_m_planet := Some (plain (scalar mp)); ka_m_star := Some (plain (scalar m)); ka_r_star := Some (plain (vector n (fun _ => r)));
     ka_rho_star := None; ka_ror := None; ka_m_planet_units := None; ka_rho_star_units := None |}.
Lemma full_batch n bs t0 r m mp : batch n (ex_full_sys n bs t0 r m mp) (fun j => ex_full_args (bs j) t0 r m mp).
Proof.
  split.
  - constructor; cbn; try exact I; try reflexivity; first [apply vector_pp|apply scalar_pp|left; reflexivity].
  - intros j Hj. assert (V : forall v, aget (vector n v) (at_planet j) = Fin (v j)) by (intro v; apply (proj2 (L_transit6.vector_values n v) j Hj)).
    unfold args_at, fin_args, map_args, ex_full_sys, ex_full_args. cbn [ka_period ka_a ka_t0 ka_tper ka_incl ka_b ka_duration ka_ecc ka_omega ka_sin_omega ka_cos_omega ka_Omega ka_m_planet ka_m_star ka_r_star ka_rho_star ka_ror ka_m_planet_units ka_rho_star_units option_map]. unfold map_qty, plain. cbn [qv qu]. rewrite !V. reflexivity.
Qed.
Lemma full_one n bs t0 r m mp o : kep_init ek (ex_full_sys n bs t0 r m mp) = Ok o -> one_each n (o_r_star o).
Proof.
  intro H. apply (f_equal (fun r => match r with Ok o => o_r_star o | Err _ => scalar 0 end)) in H. rewrite <- H. left. reflexivity.
Qed.
Lemma ex_full b o : kep_init ek (ex_b_args b) = Ok o -> kep_init ek (ex_full_args b 2 1 1 (1 / 2)) = Ok o.
Proof. exact (fun H => H). Qed.
Definition ex_solver (a e cw sw c si L : fl) : fl * fl * fl := (fdiv L a, fdiv L a, Fin 0).
Lemma sym_example : exists os o, disk_flux (3 / 10) (2 / 10) <> 0 /\ consts_ok ek /\
  system ek 2 (ex_full_sys 2 ex_bs 2 1 1 (1 / 2)) (fun j => ex_full_args (ex_bs j) 2 1 1 (1 / 2)) os /\
  kep_init ek (ex_full_sys 2 ex_bs 2 1 1 (1 / 2)) = Ok o /\
  (forall j, (j < 2)%nat -> slow ek (os j) /\ no_ecc_duration (ex_full_args (ex_bs j) 2 1 1 (1 / 2)) /\ sized (ex_full_args (ex_bs j) 2 1 1 (1 / 2))) /\
  planet_values 2 (vector 2 (fun _ => 1 / 10)) (fun _ => 1 / 10) /\ elements 2 (vector 2 (fun _ => 1 / 10)) (fun _ => 1 / 10) /\
  planet_values 2 (vector 2 (fun _ => 1 / 10 * 3)) (fun _ => 1 / 10 * 3) /\ elements 2 (vector 2 (fun _ => 1 / 10 * 3)) (fun _ => 1 / 10 * 3) /\
  one_each 2 (vector 2 (fun _ => 1 / 10)) /\ one_each 2 (vector 2 (fun _ => 1 / 10 * 3)) /\ one_each 2 (o_r_star o) /\
  (forall o', kep_init ek (ex_full_sys 2 ex_bs (2 + 4) 1 1 (1 / 2)) = Ok o' -> one_each 2 (o_r_star o')) /\
  is_vector 3 (vector 3 INR) /\ (forall m, (m < 3)%nat -> aget (vector 3 INR) (at_time m) = Fin (INR m)) /\
  is_vector 3 (vector 3 (fun m => INR m + 4)) /\ (forall m, (m < 3)%nat -> aget (vector 3 (fun m => INR m + 4)) (at_time m) = Fin (INR m + 4)) /\
  opt_values 2 (Some (vector 2 INR)) INR /\
  batch 2 (ex_full_sys 2 ex_bs (2 + 4) 1 1 (1 / 2)) (fun j => later (ex_full_args (ex_bs j) 2 1 1 (1 / 2)) 4) /\
  batch 2 (ex_full_sys 2 (fun j => - ex_bs j) 2 1 1 (1 / 2)) (fun j => mirror (ex_full_args (ex_bs j) 2 1 1 (1 / 2))) /\
  batch 2 (ex_full_sys 2 ex_bs 2 (1 * 3) (1 * 3 ^ 3) (1 / 2 * 3 ^ 3)) (fun j => scaled 3 (ex_full_args (ex_bs j) 2 1 1 (1 / 2))) /\
  even_solver ex_solver /\ scale_free_solver 3 ex_solver.
Proof.
  destruct (ex_b 0 ltac:(lra)) as (o0 & A1 & A2 & A3 & A4 & A5 & A6 & A7 & A8 & A9 & A10 & A11).
  destruct (ex_b 2 ltac:(lra)) as (o1 & B1 & B2 & B3 & B4 & B5 & B6 & B7 & B8 & B9 & B10 & B11).
  apply ex_full in A1. apply ex_full in B1.
  assert (S : system ek 2 (ex_full_sys 2 ex_bs 2 1 1 (1 / 2)) (fun j => ex_full_args (ex_bs j) 2 1 1 (1 / 2)) (fun j => match j with O => o0 | _ => o1 end)).
  { constructor.
    - lia.
    - apply full_batch.
    - apply full_batch.
    - intros [|[|j]] Hj; [| |lia]; assumption.
    - intros [|[|j]] Hj; [| |lia]; assumption.
    - intros j Hj; left; reflexivity. }
  destruct (L_transit3.system_orbit _ _ _ _ _ ek_ok S) as (o & Ho & _).
  assert (Sl : forall o b, kep_init ek (ex_full_args b 2 1 1 (1 / 2)) = Ok o -> o_period o = 10 -> o_ecc o = None -> 2 < o_a o -> slow ek o).
  { intros o' b C1 C2 C3 C4. assert (Ea : o_a o' < 100).
    { assert (B := ex_a_below). apply (f_equal (fun r => match r with Ok o => o_a o | Err _ => 0 end)) in C1. rewrite <- C1. cbn. simR. exact B. }
    unfold slow, peak_speed, ecc_of. rewrite C2, C3. replace ((1 + 0) / (1 - 0)) with 1 by field. rewrite sqrt_1. assert (P := PI_4). assert (Q := PI_RGT_0). cbn [c_light ek].
    assert (2 * PI / 10 * o_a o' <= 100) by nra. cbn. lra. }
  exists (fun j => match j with O => o0 | _ => o1 end), o.
  split; [apply L_light9.disk_example|]. split; [exact ek_ok|]. split; [exact S|]. split; [exact Ho|].
  split.
  { intros [|[|j]] Hj; [| |lia]; (split; [|split; [left; reflexivity|left; discriminate]]); [apply (Sl o0 0)|apply (Sl o1 2)]; assumption. }
  split; [apply L_transit6.vector_values|]. split; [apply elements_vector|]. split; [apply L_transit6.vector_values|]. split; [apply elements_vector|].
  split; [left; reflexivity|]. split; [left; reflexivity|]. split; [apply (full_one _ _ _ _ _ _ _ Ho)|]. split; [intros o'; apply full_one|].
  split; [apply L_transit6.vector_is|]. split; [apply L_transit6.vector_at|]. split; [apply L_transit6.vector_is|]. split; [apply L_transit6.vector_at|].
  split; [apply L_transit6.vector_values|].
  split; [exact (full_batch 2 ex_bs (2 + 4) 1 1 (1 / 2))|]. split; [exact (full_batch 2 (fun j => - ex_bs j) 2 1 1 (1 / 2))|]. split; [exact (full_batch 2 ex_bs 2 (1 * 3) (1 * 3 ^ 3) (1 / 2 * 3 ^ 3))|].
  split; [intros a e cw sw c si L; reflexivity|]. intros a e cw sw c si L. unfold ex_solver. rewrite fdiv_scale by lra. reflexivity.
Qed.
(** an eccentric orbit, its node, its mirror image *)
Lemma ecc_sym_example : exists o o1 o2 o3 o4, kep_init ek ex_ecc_args = Ok o /\ physical o /\ ecc_of o = 3 / 10 /\ no_ecc_duration ex_ecc_args /\ node_angle ex_ecc_args = 7 / 10 /\
  kep_init ek (set_Omega ex_ecc_args None) = Ok o1 /\ kep_init ek (set_Omega ex_ecc_args (Some (7 / 10))) = Ok o2 /\
  kep_init ek (mirror ex_ecc_args) = Ok o3 /\ kep_init ek (later ex_ecc_args 5) = Ok o4 /\ o_t0 o4 = 2 + 5.
Proof.
  destruct ex_ecc as (o & H & P & A1 & A2 & A3 & A4 & A5 & A6).
  destruct (proj1 (mirror_errors ek ex_ecc_args (or_intror eq_refl)) o H) as (o3 & H3).
  destruct (proj1 (later_errors ek ex_ecc_args 5) o H) as (o4 & H4).
  destruct (proj1 (L_node.node_errors ek ex_ecc_args None) o H) as (o1 & H1).
  exists o, o1, o, o3, o4. split; [exact H|]. split; [exact P|]. split; [exact A3|]. split; [right; reflexivity|]. split; [reflexivity|]. split; [exact H1|]. split; [exact H|]. split; [exact H3|]. split; [exact H4|].
  rewrite (proj1 (later_motion ek ex_ecc_args o o4 5 H H4)), A5. reflexivity.
Qed.
(** nothing but a period: the star stays one solar radius and mass *)
Definition ex_bare_args (mp : R) : kargs R :=
  {| ka_period := Some (plain 10); ka_a := None; ka_t0 := None; ka_tper := None;
     ka_incl := None; ka_b := None; ka_duration := None; ka_ecc := None;
     ka_omega := None; ka_sin_omega := None; ka_cos_omega := None; ka_Omega := None;
     ka_m_planet := Some (plain mp); ka_m_star := None; ka_r_star := None;
     ka_rho_star := None; ka_ror := None; ka_m_planet_units := None; ka_rho_star_units := None |}.
Lemma scale_default : exists x o o', kep_init ek x = Ok o /\ physical o /\ kep_init ek (scaled 2 x) = Ok o' /\ ~ sized x /\ o_r_star o' <> o_r_star o * 2 /\ o_rho_star o' = o_rho_star o /\ o_a o' <> o_a o * 2.
Proof.
  exists (ex_bare_args 0). eexists. eexists. split; [reflexivity|]. split; [|split; [reflexivity|]].
  - constructor; cbn; simR; try lra; try discriminate. apply Rpowr_pos. assert (H := PI_RGT_0). apply Rdiv_lt_0_compat; nra.
  - split; [intros [C|[C _]]; apply C; reflexivity|]. split; [cbn; lra|]. split; [reflexivity|]. cbn [o_a]. intro C.
    match type of C with ?A = ?B => assert (P : 0 < A) by (cbn; simR; apply Rpowr_pos; assert (H := PI_RGT_0); apply Rdiv_lt_0_compat; nra) end.
    revert C P. cbn. simR. rewrite Rmult_0_l. intros C P. lra.
Qed.
