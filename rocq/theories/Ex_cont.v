(** * Parameters that approach a limit: a jump and concrete cases *)
From Coq Require Import Reals Lra Lia Psatz List Bool Arith ZArith.
From Coquelicot Require Import Coquelicot.
From Verif Require Import Num CoreOps Inst CoreFlux M_units M_kepler M_fin M_tensor M_limbdark M_simple M_ttv Spec_orbit Spec_params Spec_array Spec_light Spec_delay Spec_lip Spec_cont
  L_real L_flux L_orbit L_params4 L_light1 L_light8 L_light9 L_cont L_cont2 L_cont3 L_cont4 L_transit6 Ex_orbit Ex_system Ex_sym.
Open Scope R_scope.

(** a sequence of small numbers *)
Definition small (n : nat) : R := / (INR n + 2).
Lemma small_pos n : 0 < small n <= 1 / 2.
Proof. unfold small. assert (H := pos_INR n). split; [apply Rinv_0_lt_compat; lra|]. replace (1 / 2) with (/ 2) by lra. apply Rinv_le_contravar; lra. Qed.
Lemma small_cv : Un_cv small 0.
Proof.
  intros e He. destruct (archimed_cor1 e He) as (N & HN & H0). exists N. intros n Hn. unfold R_dist. rewrite Rminus_0_r. assert (S := small_pos n). rewrite Rabs_pos_eq by lra.
  apply Rle_lt_trans with (/ INR N); [|exact HN]. unfold small. assert (0 < INR N) by (apply lt_0_INR; exact H0). assert (INR N <= INR n) by (apply le_INR; lia). apply Rinv_le_contravar; lra.
Qed.

(** an eccentric orbit, all of whose parameters may change *)
Definition ex_move (d : R) : kargs R :=
  {| ka_period := Some (plain (10 + d)); ka_a := None; ka_t0 := Some (2 - d); ka_tper := None;
     ka_incl := Some (3 / 2 - d / 10); ka_b := None; ka_duration := None; ka_ecc := Some (3 / 10 + d);
     ka_omega := Some (1 + 2 * d); ka_sin_omega := None; ka_cos_omega := None; ka_Omega := Some (7 / 10 + d);
     ka_m_planet := Some (plain (1 / 2 + d)); ka_m_star := None; ka_r_star := None;
     ka_rho_star := None; ka_ror := None; ka_m_planet_units := None; ka_rho_star_units := None |}.
Lemma ex_move_ok d : 0 <= d <= 1 / 2 -> exists o, kep_init ek (ex_move d) = Ok o /\ physical o /\ sinw_of o = sin (1 + 2 * d).
Proof.
  intro Hd. eexists. split; [reflexivity|]. split; [|reflexivity]. constructor; cbn; try lra.
  - apply Rpowr_pos. assert (H := PI_RGT_0). apply Rdiv_lt_0_compat; nra.
  - apply COS_bound.
  - intros e He. inversion He. cbn. lra.
  - intros e He. inversion He. cbn. generalize (sin2_cos2' (1 + 2 * d)). lra.
Qed.
(** omega close to -90 degrees, given through its sine and cosine *)
Definition ex_turn (d : R) : kargs R :=
  {| ka_period := Some (plain 10); ka_a := None; ka_t0 := Some 2; ka_tper := None;
     ka_incl := Some (3 / 2); ka_b := None; ka_duration := None; ka_ecc := Some (3 / 10);
     ka_omega := None; ka_sin_omega := Some (- cos d); ka_cos_omega := Some (sin d); ka_Omega := None;
     ka_m_planet := Some (plain (1 / 2)); ka_m_star := None; ka_r_star := None;
     ka_rho_star := None; ka_ror := None; ka_m_planet_units := None; ka_rho_star_units := None |}.
Lemma ex_turn_ok d : exists o, kep_init ek (ex_turn d) = Ok o /\ physical o /\ sinw_of o = - cos d /\ 0 < o_sin_incl o /\ o_t0 o = 2.
Proof.
  eexists. split; [reflexivity|]. split; [|cbn; repeat split; try lra].
  - constructor; cbn; try lra.
    + apply Rpowr_pos. assert (H := PI_RGT_0). apply Rdiv_lt_0_compat; nra.
    + apply COS_bound.
    + intros e He. inversion He. cbn. lra.
    + intros e He. inversion He. cbn. generalize (sin2_cos2' d). lra.
  - apply sin_gt_0; [lra|]. generalize PI2_1. lra.
Qed.
Ltac given := first [intro; reflexivity | eexists; split; [intro; reflexivity|]].
Lemma turn_tends : args_tend (fun n => ex_turn (small n)) (ex_turn 0).
Proof.
  assert (Cc := small_cv). constructor; cbn; given; try (split; [intro; reflexivity|]); cbn; cv.
Qed.
Lemma move_cv (f : R -> R) : continuity_pt f 0 -> Un_cv (fun n => f (small n)) (f 0).
Proof. intro H. apply cv_app; [exact H|exact small_cv]. Qed.
Lemma move_tends : args_tend (fun n => ex_move (small n)) (ex_move 0).
Proof.
  assert (Cc := small_cv). constructor; cbn; given; try (split; [intro; reflexivity|]); cbn; cv; lra.
Qed.
(** omega approaches -90 degrees, where t0 changes from a transit to an occultation *)
Lemma turn_jump : ~ (forall k xs x os o t, consts_ok k -> args_tend xs x -> (forall n, kep_init k (xs n) = Ok (os n) /\ physical (os n)) -> kep_init k x = Ok o -> physical o -> no_ecc_duration x ->
  vec_tends (fun n => get_relative_position k (os n) (kep_warp (os n)) t None false) (get_relative_position k o (kep_warp o) t None false)).
Proof.
  intro H. destruct (ex_turn_ok 0) as (o & Ho & Hp & Hs & Hi & Ht). rewrite cos_0 in Hs.
  set (os := fun n => match kep_init ek (ex_turn (small n)) with Ok o => o | Err _ => o end).
  assert (Os : forall n, kep_init ek (ex_turn (small n)) = Ok (os n) /\ physical (os n) /\ sinw_of (os n) = - cos (small n) /\ 0 < o_sin_incl (os n) /\ o_t0 (os n) = 2).
  { intro n. destruct (ex_turn_ok (small n)) as (o' & H1 & H2). unfold os. rewrite H1. split; [reflexivity|]. exact H2. }
  assert (V := H ek _ _ os o 2 ek_ok turn_tends (fun n => conj (proj1 (Os n)) (proj1 (proj2 (Os n)))) Ho Hp (or_intror eq_refl)).
  destruct V as (_ & _ & V). assert (B := mid_transit_behind ek _ o ek_ok Ho Hp Hs Hi). rewrite Ht in B.
  destruct (V (- vz (get_relative_position ek o (kep_warp o) 2 None false)) (Ropp_0_gt_lt_contravar _ B)) as (N & HN). specialize (HN N ltac:(lia)).
  destruct (Os N) as (C1 & C2 & C3 & C4 & C5). assert (Hs' : sinw_of (os N) <> -1).
  { rewrite C3. assert (S := small_pos N). assert (P := PI2_1). assert (cos (small N) < cos 0) by (apply cos_decreasing_1; lra). rewrite cos_0 in *. lra. }
  destruct (mid_transit ek _ _ ek_ok C1 C2 Hs') as (_ & Z & R0). rewrite C5 in Z.
  assert (Z0 : 0 < vz (get_relative_position ek (os N) (kep_warp (os N)) 2 None false)) by (rewrite Z; apply Rmult_lt_0_compat; assumption).
  revert HN B Z0. unfold R_dist. generalize (vz (get_relative_position ek (os N) (kep_warp (os N)) 2 None false)), (vz (get_relative_position ek o (kep_warp o) 2 None false)).
  intros a b HN B Z0. rewrite Rabs_pos_eq in HN by lra. lra.
Qed.

Lemma move_example : exists os o, args_tend (fun n => ex_move (small n)) (ex_move 0) /\ (forall n, kep_init ek (ex_move (small n)) = Ok (os n) /\ physical (os n)) /\
  kep_init ek (ex_move 0) = Ok o /\ physical o /\ no_ecc_duration (ex_move 0) /\ sinw_of o <> -1 /\ (forall n, ex_move (small n) <> ex_move 0).
Proof.
  destruct (ex_move_ok 0 ltac:(lra)) as (o & Ho & Hp & Hs).
  set (os := fun n => match kep_init ek (ex_move (small n)) with Ok o => o | Err _ => o end). exists os, o.
  split; [exact move_tends|]. split.
  { intro n. destruct (ex_move_ok (small n)) as (o' & H1 & H2 & H3); [assert (S := small_pos n); lra|]. unfold os. rewrite H1. split; [reflexivity|exact H2]. }
  split; [exact Ho|]. split; [exact Hp|]. split; [right; reflexivity|]. split.
  { rewrite Hs. replace (1 + 2 * 0) with 1 by ring. assert (0 < sin 1) by (apply sin_gt_0; generalize PI2_1; lra). lra. }
  intros n E. apply (f_equal (fun x => match ka_t0 x with Some t => t | None => 0 end)) in E. cbn in E. assert (S := small_pos n). lra.
Qed.

(** two planets whose impact parameters change *)
Definition near_bs (q j : nat) : R := ex_bs j * (1 - small q).
Lemma near_system bs : (forall j, 0 <= bs j <= 2) -> exists os o, system ek 2 (ex_full_sys 2 bs 2 1 1 (1 / 2)) (fun j => ex_full_args (bs j) 2 1 1 (1 / 2)) os /\
  kep_init ek (ex_full_sys 2 bs 2 1 1 (1 / 2)) = Ok o /\ forall j, o_r_star (os j) = 1 /\ o_ecc (os j) = None /\ 2 < o_a (os j).
Proof.
  intro Hb. destruct (ex_b (bs 0%nat) (Hb 0%nat)) as (o0 & _). set (os := fun j => match kep_init ek (ex_full_args (bs j) 2 1 1 (1 / 2)) with Ok o => o | Err _ => o0 end).
  assert (Os : forall j, kep_init ek (ex_full_args (bs j) 2 1 1 (1 / 2)) = Ok (os j) /\ physical (os j) /\ o_r_star (os j) = 1 /\ o_ecc (os j) = None /\ 2 < o_a (os j)).
  { intro j. destruct (ex_b (bs j) (Hb j)) as (o' & A1 & A2 & A3 & A4 & A5 & A6 & A7 & A8 & A9 & A10 & A11). apply ex_full in A1. unfold os. rewrite A1. split; [reflexivity|]. split; [exact A2|]. split; [exact A9|]. split; [exact A5|exact A10]. }
  assert (Sy : system ek 2 (ex_full_sys 2 bs 2 1 1 (1 / 2)) (fun j => ex_full_args (bs j) 2 1 1 (1 / 2)) os).
  { constructor.
    - lia.
    - apply full_batch.
    - apply full_batch.
    - intros j _. apply (Os j).
    - intros j _. apply (Os j).
    - intros j _; left; reflexivity. }
  destruct (L_transit3.system_orbit _ _ _ _ _ ek_ok Sy) as (o & Ho & _). exists os, o. split; [exact Sy|]. split; [exact Ho|]. intro j. apply (Os j).
Qed.
Lemma near_disk q : disk_flux (3 / 10 * (1 - small q)) (2 / 10 + small q) <> 0.
Proof. rewrite L_light1.disk_value. assert (P := PI_RGT_0). assert (Q := small_pos q). apply Rgt_not_eq, Rmult_lt_0_compat; lra. Qed.
Lemma near_tends j : args_tend (fun q => ex_full_args (near_bs q j) 2 1 1 (1 / 2)) (ex_full_args (ex_bs j) 2 1 1 (1 / 2)).
Proof.
  assert (Cc := small_cv). constructor; cbn; given; try (split; [intro; reflexivity|]); cbn; cv.
  unfold near_bs. replace (ex_bs j) with (ex_bs j * (1 - 0)) at 1 by ring. cv.
Qed.
Lemma near_example : exists os O ps o,
  disk_flux (3 / 10) (2 / 10) <> 0 /\ (forall q, disk_flux (3 / 10 * (1 - small q)) (2 / 10 + small q) <> 0) /\ Un_cv (fun q => 3 / 10 * (1 - small q)) (3 / 10) /\ Un_cv (fun q => 2 / 10 + small q) (2 / 10) /\
  (forall q, system ek 2 (ex_full_sys 2 (near_bs q) 2 1 1 (1 / 2)) (fun j => ex_full_args (near_bs q j) 2 1 1 (1 / 2)) (os q)) /\ (forall q, kep_init ek (ex_full_sys 2 (near_bs q) 2 1 1 (1 / 2)) = Ok (O q)) /\
  system ek 2 (ex_full_sys 2 ex_bs 2 1 1 (1 / 2)) (fun j => ex_full_args (ex_bs j) 2 1 1 (1 / 2)) ps /\ kep_init ek (ex_full_sys 2 ex_bs 2 1 1 (1 / 2)) = Ok o /\
  (forall j, (j < 2)%nat -> args_tend (fun q => ex_full_args (near_bs q j) 2 1 1 (1 / 2)) (ex_full_args (ex_bs j) 2 1 1 (1 / 2)) /\ sinw_of (ps j) <> -1) /\
  (forall q, elements 2 (vector 2 (fun _ => 1 / 10 + small q)) (fun _ => 1 / 10 + small q)) /\ elements 2 (vector 2 (fun _ => 1 / 10)) (fun _ => 1 / 10) /\
  (forall j, (j < 2)%nat -> Un_cv (fun q => 1 / 10 + small q) (1 / 10) /\ o_r_star (ps j) + Rabs (1 / 10) < o_a (ps j) * (1 - ecc_of (ps j))) /\
  (forall q, is_vector 3 (vector 3 (fun m => INR m + small q)) /\ forall m, (m < 3)%nat -> aget (vector 3 (fun m => INR m + small q)) (at_time m) = Fin (INR m + small q)) /\
  is_vector 3 (vector 3 INR) /\ (forall m, (m < 3)%nat -> aget (vector 3 INR) (at_time m) = Fin (INR m)) /\ (forall m, (m < 3)%nat -> Un_cv (fun q => INR m + small q) (INR m)) /\
  (forall q, opt_exposures 3 (one_texp (Some (1 / 4 - small q / 10))) (fun _ => 1 / 4 - small q / 10) /\ is_none (one_texp (Some (1 / 4 - small q / 10))) = is_none (one_texp (Some (1 / 4)))) /\
  opt_exposures 3 (one_texp (Some (1 / 4))) (fun _ => 1 / 4) /\ Un_cv (fun q => 1 / 4 - small q / 10) (1 / 4) /\ exists nodes weights, stencil 7 2 = Ok (nodes, weights).
Proof.
  assert (Hb : forall j, 0 <= ex_bs j <= 2) by (intros [|j]; cbn; lra).
  assert (Hq : forall q j, 0 <= near_bs q j <= 2) by (intros q j; unfold near_bs; assert (A := Hb j); assert (B := small_pos q); nra).
  destruct (near_system ex_bs Hb) as (ps & o & S1 & S2 & S3).
  set (O := fun q => match kep_init ek (ex_full_sys 2 (near_bs q) 2 1 1 (1 / 2)) with Ok o' => o' | Err _ => o end).
  set (os := fun q j => match kep_init ek (ex_full_args (near_bs q j) 2 1 1 (1 / 2)) with Ok o' => o' | Err _ => ps 0%nat end).
  assert (Sq : forall q, system ek 2 (ex_full_sys 2 (near_bs q) 2 1 1 (1 / 2)) (fun j => ex_full_args (near_bs q j) 2 1 1 (1 / 2)) (os q) /\ kep_init ek (ex_full_sys 2 (near_bs q) 2 1 1 (1 / 2)) = Ok (O q)).
  { intro q. destruct (near_system (near_bs q) (Hq q)) as (os' & o' & T1 & T2 & T3). split; [|unfold O; rewrite T2; reflexivity].
    destruct T1 as [U1 U2 U3 U4 U5 U6]. constructor; try assumption; intros j Hj; unfold os; rewrite (U4 j Hj); [reflexivity|exact (U5 j Hj)]. }
  assert (Cc := small_cv). assert (E : forall f c d, Un_cv f c -> c = d -> Un_cv f d) by (intros f c d A ->; exact A).
  exists os, O, ps, o. split; [exact disk_example|]. split; [exact near_disk|].
  split; [apply (E _ (3 / 10 * (1 - 0))); [cv|lra]|]. split; [apply (E _ (2 / 10 + 0)); [cv|lra]|].
  split; [intro q; apply Sq|]. split; [intro q; apply Sq|]. split; [exact S1|]. split; [exact S2|].
  split; [intros j Hj; split; [apply near_tends|destruct (S3 j) as (_ & A & _); unfold sinw_of; rewrite A; lra]|].
  split; [intro q; apply elements_vector|]. split; [apply elements_vector|].
  split. { intros j Hj; split; [apply (E _ (1 / 10 + 0)); [cv|lra]|]. destruct (S3 j) as (A & B & D). unfold ecc_of. rewrite A, B, Rabs_pos_eq by lra. lra. }
  split; [intro q; split; [apply vector_is|apply vector_at]|]. split; [apply vector_is|]. split; [apply vector_at|].
  split; [intros m Hm; apply (E _ (INR m + 0)); [cv|lra]|].
  split; [intro q; split; [exact (one_exp 3 (Some (1 / 4 - small q / 10)))|reflexivity]|]. split; [exact (one_exp 3 (Some (1 / 4)))|].
  split; [apply (E _ (1 / 4 - 0 / 10)); [cv; lra|lra]|]. eexists _, _. reflexivity.
Qed.

(** an eccentric orbit given by a duration, with period and duration that change *)
Definition ex_stretch (d : R) : kargs R :=
  {| ka_period := Some (plain (8 * (1 + d))); ka_a := Some (plain (3 / 2)); ka_t0 := Some d; ka_tper := None;
     ka_incl := None; ka_b := None; ka_duration := Some (plain (1 + d)); ka_ecc := Some (1 / 2);
     ka_omega := Some 0; ka_sin_omega := None; ka_cos_omega := None; ka_Omega := Some d;
     ka_m_planet := Some (plain 0); ka_m_star := None; ka_r_star := Some (plain 1);
     ka_rho_star := None; ka_ror := None; ka_m_planet_units := None; ka_rho_star_units := None |}.
Lemma ex_stretch_ok e : 0 <= e -> exists o, kep_init ek (ex_stretch e) = Ok o /\ physical o /\ sinw_of o = 0 /\ ecc_of o = 1 / 2 /\ o_period o = 8 * (1 + e) /\ o_r_star o = 1 /\ o_a_planet o = - (3 / 2).
Proof.
  intro He. eexists. split; [reflexivity|]. assert (H := PI_RGT_0). assert (H4 := PI_4).
  set (F := (1 + 1 / 2 * sin 0) / (1 - 1 / 2 * (1 / 2))).
  assert (HF : F = 4 / 3) by (unfold F; rewrite sin_0; field).
  assert (Hc : sin (PI * (1 + e) * F / (8 * (1 + e))) = 1 / 2) by (rewrite HF; replace (PI * (1 + e) * (4 / 3) / (8 * (1 + e))) with (PI / 6) by (field; lra); apply sin_PI6).
  set (M := 4 * PI * PI * (3 / 2 * (3 / 2 * (3 / 2))) / (2942.2062175044193 * (8 * (1 + e) * (8 * (1 + e))))).
  assert (HM : 0 < M). { unfold M. apply Rdiv_lt_0_compat; [|nra]. assert (0 < PI * PI) by nra. lra. }
  assert (Eap : - (3 / 2) * (M - 0) / (M - 0 + 0) = - (3 / 2)) by (field; lra).
  split; [|repeat split; cbn; try lra; try (exact sin_0); try (fold M; exact Eap)].
  constructor; cbn; fold F; fold M; try lra.
  - rewrite Eap, Hc, HF, sin_0.
    match goal with |- context [sqrt ?w] => replace w with (7 / 5) by field end.
    assert (Q := sqrt_sqrt (7 / 5) ltac:(lra)). assert (Q' := sqrt_pos (7 / 5)). split; nra.
  - intros d Hd. inversion Hd. cbn. lra.
  - intros d Hd. inversion Hd. cbn. generalize (sin2_cos2' 0). lra.
Qed.
Lemma stretch_tends : args_tend (fun n => ex_stretch (small n)) (ex_stretch 0).
Proof.
  assert (Cc := small_cv). constructor; cbn; given; try (split; [intro; reflexivity|]); cbn; cv; lra.
Qed.
Lemma stretch_example : exists os o, args_tend (fun n => ex_stretch (small n)) (ex_stretch 0) /\ (forall n, kep_init ek (ex_stretch (small n)) = Ok (os n) /\ physical (os n)) /\
  kep_init ek (ex_stretch 0) = Ok o /\ physical o /\ ~ no_ecc_duration (ex_stretch 0) /\ duration_fits ek (ex_stretch 0) o /\ sinw_of o <> -1 /\ (forall n, ex_stretch (small n) <> ex_stretch 0).
Proof.
  destruct (ex_stretch_ok 0 ltac:(lra)) as (o & Ho & Hp & Hs & Ee & Ep & Er & Ea).
  set (os := fun n => match kep_init ek (ex_stretch (small n)) with Ok o => o | Err _ => o end). exists os, o.
  split; [exact stretch_tends|]. split.
  { intro n. destruct (ex_stretch_ok (small n)) as (o' & H1 & H2 & H3); [assert (S := small_pos n); lra|]. unfold os. rewrite H1. split; [reflexivity|exact H2]. }
  split; [exact Ho|]. split; [exact Hp|]. split; [intros [N|N]; discriminate N|]. split.
  { right. exists (plain (1 + 0)), (1 + 0). split; [reflexivity|]. split; [reflexivity|]. cbn zeta. rewrite Ea, Er, Ee, Hs, Ep.
    replace ((1 + 1 / 2 * 0) / (1 - 1 / 2 * (1 / 2))) with (4 / 3) by field.
    replace (PI * (1 + 0) * (4 / 3) / (8 * (1 + 0))) with (PI / 6) by field. rewrite sin_PI6. split; [lra|].
    match goal with |- 0 < ?a => replace a with (63 / 80) by field end. lra. }
  split; [rewrite Hs; lra|].
  intros n E. apply (f_equal (fun x => match ka_t0 x with Some t => t | None => 0 end)) in E. cbn in E. assert (S := small_pos n). lra.
Qed.
