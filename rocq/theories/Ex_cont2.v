(** * A SimpleTransitOrbit whose parameters approach a limit; where it jumps *)
From Coq Require Import Reals Lra Lia Psatz List Bool Arith ZArith.
From Verif Require Import Num CoreOps Inst CoreFlux M_units M_kepler M_fin M_tensor M_limbdark M_simple M_ttv Spec_orbit Spec_params Spec_array Spec_light Spec_simple Spec_depth Spec_delay Spec_lip Spec_cont Spec_cont2
  L_real L_fl L_flux L_light1 L_light4 L_light8 L_depth2 L_depth3 L_simple L_simple2 L_transit6 L_lip2 L_lip3 L_light9 L_cont L_cont3 L_cont4 L_cont6 Ex_orbit Ex_system Ex_sym Ex_lip Ex_cont.
Import ListNotations.
Open Scope R_scope.

Definition ex_near (s b : R) : sargs R :=
  {| sa_period := 10 + s; sa_duration := 1 + s; sa_t0 := Some (2 - s); sa_b := Some b; sa_r_star := None; sa_ror := Some (1 / 10 + s) |}.
Definition ex_nears (s : R) (bs : nat -> R) : sargs tens :=
  {| sa_period := vector 2 (fun _ => 10 + s); sa_duration := scalar (1 + s); sa_t0 := Some (scalar (2 - s)); sa_b := Some (vector 2 bs);
     sa_r_star := None; sa_ror := Some (scalar (1 / 10 + s)) |}.
Lemma ex_near_ok s b : 0 <= s -> 0 <= b <= 1 -> simple_ok (ex_near s b).
Proof. intros Hs H. constructor; cbn; try lra. rewrite Rabs_pos_eq; lra. Qed.
Lemma ex_nears_system s bs : simple_system 2 (ex_nears s bs) (fun j => ex_near s (bs j)).
Proof.
  constructor; cbn; try exact I; try apply vector_pp; try apply scalar_pp; [split; [apply vector_pp|left; reflexivity]|].
  intros [|[|j]] Hj; [| |lia]; reflexivity.
Qed.
Lemma ex_near_tends b : sargs_tend (fun q => ex_near (small q) (b + small q)) (ex_near 0 b).
Proof.
  assert (C := small_cv). constructor; cbn.
  - cv.
  - cv.
  - exists (fun q => 2 - small q). split; [reflexivity|]. cv.
  - exists (fun q => b + small q). split; [reflexivity|]. apply (cv_lim _ (b + 0)); [ring|]. cv.
  - reflexivity.
  - exists (fun q => 1 / 10 + small q). split; [reflexivity|]. cv.
Qed.

Lemma const_tends (x : sargs R) : sargs_tend (fun _ => x) x.
Proof.
  assert (G : forall v : option R, given_tends Un_cv (fun _ => v) v). { intros [v|]; cbn; [exists (fun _ => v); split; [reflexivity|apply cv_const]|reflexivity]. }
  constructor; first [apply G|apply cv_const].
Qed.
Lemma before_cv c : Un_cv (fun q => c - small q) c.
Proof. assert (C := small_cv). apply (cv_lim _ (c - 0)); [ring|]. cv. Qed.
Lemma ex0_speed : 0 < sspeed (ex_simple 0).
Proof.
  rewrite (sspeed_chord (ex_simple 0)) by (apply ex_simple_ok; lra). unfold chord_speed. cbn. replace (((1 + 1 / 10) * (1 + 1 / 10)) - 0 * 0) with (11 / 10 * (11 / 10)) by lra. rewrite sqrt_square by lra. lra.
Qed.
Lemma halfway_jump : ~ (forall xs x ts t, sargs_tend xs x -> (forall n, simple_ok (xs n)) -> simple_ok x -> Un_cv ts t -> Un_cv (fun n => sx (xs n) (ts n)) (sx x t)).
Proof.
  intro H. set (x := ex_simple 0). assert (ok : simple_ok x) by (apply ex_simple_ok; lra).
  specialize (H (fun _ => x) x (fun q => 7 - small q) 7 (const_tends x) (fun _ => ok) ok (before_cv 7)).
  assert (V := ex0_speed). fold x in V. destruct (H (sspeed x) V) as (N & HN). specialize (HN N ltac:(lia)). assert (Q := small_pos N).
  assert (S1 : sdt x 7 = -5). { replace 7 with (smid x 1 + -5) by (unfold smid, x; cbn; lra). apply sdt_mid; cbn; lra. }
  assert (S2 : sdt x (7 - small N) = 5 - small N). { replace (7 - small N) with (smid x 0 + (5 - small N)) by (unfold smid, x; cbn; lra). apply sdt_mid; cbn; lra. }
  unfold sx in HN. rewrite !spos_eq, S1, S2 in HN. cbn [fst snd] in HN. unfold R_dist in HN. replace (sspeed x * (5 - small N) - sspeed x * -5) with (sspeed x * (10 - small N)) in HN by ring.
  rewrite Rabs_pos_eq in HN by (apply Rmult_le_pos; lra). nra.
Qed.
Lemma contact_flip : ~ (forall xs x ts t, sargs_tend xs x -> (forall n, simple_ok (xs n)) -> simple_ok x -> Un_cv ts t -> Un_cv (fun n => sz (xs n) (ts n)) (sz x t)).
Proof.
  intro H. set (x := ex_simple 0). assert (ok : simple_ok x) by (apply ex_simple_ok; lra).
  specialize (H (fun _ => x) x (fun q => 5 / 2 - small q) (5 / 2) (const_tends x) (fun _ => ok) ok (before_cv (5 / 2))).
  destruct (H 1 ltac:(lra)) as (N & HN). specialize (HN N ltac:(lia)). assert (Q := small_pos N).
  assert (S1 : sdt x (5 / 2) = 1 / 2). { replace (5 / 2) with (smid x 0 + 1 / 2) by (unfold smid, x; cbn; lra). apply sdt_mid; cbn; lra. }
  assert (S2 : sdt x (5 / 2 - small N) = 1 / 2 - small N). { replace (5 / 2 - small N) with (smid x 0 + (1 / 2 - small N)) by (unfold smid, x; cbn; lra). apply sdt_mid; cbn; lra. }
  unfold sz in HN. rewrite !spos_eq, S1, S2 in HN. cbn [fst snd] in HN. rewrite !Rabs_pos_eq in HN by lra. rewrite lt_yes, lt_no in HN by (cbn; lra).
  unfold R_dist in HN. rewrite Rabs_pos_eq in HN by lra. lra.
Qed.
(** the same orbit and planet at times that approach a contact *)
Lemma larger_jump : ~ (forall u1 u2 n x xs r rs ts t, disk_flux u1 u2 <> 0 -> simple_system n x xs -> (forall j, (j < n)%nat -> simple_ok (xs j)) ->
  elements n r rs -> (forall j, (j < n)%nat -> 0 <= rs j) -> Un_cv ts t ->
  tables_tend n 1 (fun q => get_light_curve (ld_init (Fin u1) (Fin u2)) (Some (simple_api (simple_init x))) (Some r) (Some (vector 1 (fun _ => ts q))) None 7 0 (Some false) false)
    (get_light_curve (ld_init (Fin u1) (Fin u2)) (Some (simple_api (simple_init x))) (Some r) (Some (vector 1 (fun _ => t))) None 7 0 (Some false) false)).
Proof.
  intro H. assert (Hpi := PI_RGT_0). assert (Hd : disk_flux 0 0 <> 0) by (rewrite uniform_disk; lra). destruct simple_example as (Sy & Ok_ & _).
  set (h := fun q => small q / 20).
  assert (Ch : Un_cv (fun q => 5 / 2 - h q) (5 / 2)). { assert (C := small_cv). apply (cv_lim _ (5 / 2 - 0 / 20)); [lra|]. unfold h. cv. lra. }
  specialize (H 0 0 2%nat _ _ (vector 2 (fun _ => 2 / 10)) (fun _ => 2 / 10) (fun q => 5 / 2 - h q) (5 / 2) Hd Sy Ok_ (elements_vector _ _) ltac:(intros; lra) Ch).
  destruct (simple_answers _ _ _ Sy Ok_) as [HA Hs].
  assert (Rp : forall j, (j < 2)%nat -> 0 < dflt 1 (sa_r_star (ex_simple (INR j / 2)))) by (intros j Hj; cbn; lra).
  assert (None_ok : forall N, opt_exposures N None (fun _ => 0)) by (intros N m; reflexivity).
  assert (K : forall s, exists X f, get_light_curve (ld_init (Fin 0) (Fin 0)) (Some (simple_api (simple_init (ex_simples (fun j => INR j / 2))))) (Some (vector 2 (fun _ => 2 / 10))) (Some (vector 1 (fun _ => s))) None 7 0 (Some false) false = Ok X /\
    light_table 2 1 X f /\ f 0%nat 0%nat = flux_at 0 0 (spos (ex_simple (INR 0 / 2)) s) (2 / 10) (dflt 1 (sa_r_star (ex_simple (INR 0 / 2))))).
  { intro s. destruct (curve_of 0 0 _ false 2 _ _ _ _ 1 _ _ None _ 7 0 Hd HA Hs Rp (elements_vector 2 (fun _ => 2 / 10)) (vector_is 1 (fun _ => s)) (fun m Hm => vector_at 1 (fun _ => s) m Hm) (None_ok _) ltac:(intro Q; contradiction Q; reflexivity)) as (X & f & EX & TX & F).
    exists X, f. split; [exact EX|]. split; [exact TX|]. apply F. }
  destruct H as (fs & f & HF & (A' & EA' & TA') & C). specialize (C 0%nat 0%nat ltac:(lia) ltac:(lia)).
  destruct (C (1 / 400) ltac:(lra)) as (N & HN). specialize (HN N ltac:(lia)). destruct (HF N) as (A & EA & TA).
  destruct (K (5 / 2)) as (X' & g' & EX' & TX' & G'). destruct (K (5 / 2 - h N)) as (X & g & EX & TX & G). cbv beta in EA. rewrite EX in EA. injection EA as <-. rewrite EX' in EA'. injection EA' as <-.
  assert (L1 : fs N 0%nat 0%nat = g 0%nat 0%nat). { assert (A1 := proj2 TX 0%nat 0%nat ltac:(lia) ltac:(lia)). assert (A2 := proj2 TA 0%nat 0%nat ltac:(lia) ltac:(lia)). rewrite A1 in A2. injection A2. auto. }
  assert (L2 : f 0%nat 0%nat = g' 0%nat 0%nat). { assert (A1 := proj2 TX' 0%nat 0%nat ltac:(lia) ltac:(lia)). assert (A2 := proj2 TA' 0%nat 0%nat ltac:(lia) ltac:(lia)). rewrite A1 in A2. injection A2. auto. }
  unfold R_dist in HN. rewrite L1, L2, G, G' in HN. clear - HN Ok_ Hd. 
  set (x := ex_simple (INR 0 / 2)) in *. assert (okx : simple_ok x) by (apply Ok_; lia). set (hN := h N) in *. assert (h0 : 0 < hN <= 1 / 40) by (unfold hN, h; assert (Q := small_pos N); lra). clearbody hN.
  assert (S1 : sdt x (5 / 2 - hN) = 1 / 2 - hN). { replace (5 / 2 - hN) with (smid x 0 + (1 / 2 - hN)) by (unfold smid, x; cbn; lra). apply sdt_mid; cbn; lra. }
  assert (S2 : sdt x (5 / 2) = 1 / 2). { replace (5 / 2) with (smid x 0 + 1 / 2) by (unfold smid, x; cbn; lra). apply sdt_mid; cbn; lra. }
  assert (V : sspeed x = 22 / 10). { rewrite (sspeed_chord x okx). unfold chord_speed, x. cbn. replace (((1 + 1 / 10) * (1 + 1 / 10)) - 0 / 2 * (0 / 2)) with (11 / 10 * (11 / 10)) by lra. rewrite sqrt_square by lra. lra. }
  assert (E2 : flux_at 0 0 (spos x (5 / 2)) (2 / 10) (dflt 1 (sa_r_star x)) = 0).
  { rewrite flux_seen by assumption. rewrite S2, lt_no; [reflexivity|]. rewrite Rabs_pos_eq by lra. cbn. lra. }
  assert (E1 : flux_at 0 0 (spos x (5 / 2 - hN)) (2 / 10) (dflt 1 (sa_r_star x)) <= - (1 / 400)).
  { rewrite flux_seen by assumption. rewrite S1, lt_yes by (rewrite Rabs_pos_eq by lra; cbn; lra). unfold apart. rewrite spos_eq, S1, V. unfold vx, vy. cbn [fst snd]. replace (dflt 1 (sa_r_star x)) with 1 by reflexivity. replace (dflt 0 (sa_b x)) with 0 by (cbn; lra).
    replace (22 / 10 * (1 / 2 - hN) * (22 / 10 * (1 / 2 - hN)) + (0 * 1 + 0) * (0 * 1 + 0)) with (22 / 10 * (1 / 2 - hN) * (22 / 10 * (1 / 2 - hN))) by ring.
    rewrite sqrt_square by lra. replace (22 / 10 * (1 / 2 - hN) / 1) with (22 / 10 * (1 / 2 - hN)) by field. replace (2 / 10 / 1) with (2 / 10) by field. apply flat_contact. lra. }
  rewrite E2, Rminus_0_r in HN. rewrite Rabs_left1 in HN by lra. lra.
Qed.

Lemma simple_near_example :
  disk_flux (3 / 10) (2 / 10) <> 0 /\ (forall q, disk_flux (3 / 10 * (1 - small q)) (2 / 10 + small q) <> 0) /\ Un_cv (fun q => 3 / 10 * (1 - small q)) (3 / 10) /\ Un_cv (fun q => 2 / 10 + small q) (2 / 10) /\
  (forall q, simple_system 2 (ex_nears (small q) (fun j => INR j / 2 + small q)) (fun j => ex_near (small q) (INR j / 2 + small q)) /\ forall j, (j < 2)%nat -> simple_ok (ex_near (small q) (INR j / 2 + small q))) /\
  simple_system 2 (ex_nears 0 (fun j => INR j / 2)) (fun j => ex_near 0 (INR j / 2)) /\
  (forall j, (j < 2)%nat -> simple_ok (ex_near 0 (INR j / 2)) /\ sargs_tend (fun q => ex_near (small q) (INR j / 2 + small q)) (ex_near 0 (INR j / 2))) /\
  (forall q, elements 2 (vector 2 (fun _ => 1 / 10 + 2 * small q)) (fun _ => 1 / 10 + 2 * small q)) /\ elements 2 (vector 2 (fun _ => 1 / 10)) (fun _ => 1 / 10) /\
  (forall j, (j < 2)%nat -> Un_cv (fun q => 1 / 10 + 2 * small q) (1 / 10) /\ Rabs (1 / 10) <= dflt 0 (sa_ror (ex_near 0 (INR j / 2))) * dflt 1 (sa_r_star (ex_near 0 (INR j / 2)))) /\
  (forall q, is_vector 2 (vector 2 (fun m => 3 / 2 + INR m + small q)) /\ forall m, (m < 2)%nat -> aget (vector 2 (fun m => 3 / 2 + INR m + small q)) (at_time m) = Fin (3 / 2 + INR m + small q)) /\
  is_vector 2 (vector 2 (fun m => 3 / 2 + INR m)) /\ (forall m, (m < 2)%nat -> aget (vector 2 (fun m => 3 / 2 + INR m)) (at_time m) = Fin (3 / 2 + INR m)) /\ (forall m, (m < 2)%nat -> Un_cv (fun q => 3 / 2 + INR m + small q) (3 / 2 + INR m)) /\
  (forall m, (m < 2)%nat -> at_contact (ex_near 0 0) (3 / 2 + INR m)) /\ half_way (ex_near 0 0) 7 /\ ~ half_way (ex_near 0 0) 3 /\ ~ at_contact (ex_near 0 0) 3 /\
  (forall q, opt_exposures 2 (one_texp (Some (1 / 4 - small q / 10))) (fun _ => 1 / 4 - small q / 10) /\ is_none (one_texp (Some (1 / 4 - small q / 10))) = is_none (one_texp (Some (1 / 4)))) /\
  opt_exposures 2 (one_texp (Some (1 / 4))) (fun _ => 1 / 4) /\ Un_cv (fun q => 1 / 4 - small q / 10) (1 / 4) /\ exists nodes weights, stencil 7 2 = Ok (nodes, weights).
Proof.
  assert (C := small_cv). split; [exact disk_example|]. split; [exact near_disk|].
  split; [apply (cv_lim _ (3 / 10 * (1 - 0))); [lra|cv]|]. split; [apply (cv_lim _ (2 / 10 + 0)); [lra|cv]|].
  split. { intro q. split; [apply (ex_nears_system (small q) (fun j => INR j / 2 + small q))|]. intros j Hj. assert (Q := small_pos q). apply ex_near_ok; [lra|]. destruct j as [|[|j]]; [| |lia]; cbn; lra. }
  split; [apply (ex_nears_system 0 (fun j => INR j / 2))|].
  split. { intros j Hj. split; [|apply ex_near_tends]. apply ex_near_ok; [lra|]. destruct j as [|[|j]]; [| |lia]; cbn; lra. }
  split; [intro q; apply elements_vector|]. split; [apply elements_vector|].
  split. { intros j Hj. split; [apply (cv_lim _ (1 / 10 + 2 * 0)); [lra|cv]|]. cbn. rewrite Rabs_pos_eq by lra. lra. }
  split; [intro q; split; [apply vector_is|apply vector_at]|]. split; [apply vector_is|]. split; [apply vector_at|].
  split; [intros m Hm; apply (cv_lim _ (3 / 2 + INR m + 0)); [lra|cv]|].
  split. { intros m Hm. exists 0%Z. unfold smid. cbn. destruct m as [|[|m]]; [| |lia]; cbn; [rewrite Rabs_left1 by lra|rewrite Rabs_pos_eq by lra]; lra. }
  split. { exists 0%Z. unfold smid. cbn. lra. }
  split. { intros (q & E). unfold smid in E. cbn in E. assert (IZR (10 * q + 4) = 0) by (rewrite plus_IZR, mult_IZR; lra). apply eq_IZR in H. lia. }
  split. { intros (q & E). unfold smid in E. cbn in E. assert (A : IZR (20 * q) = 1 \/ IZR (20 * q) = 3) by (rewrite mult_IZR; revert E; unfold Rabs; destruct (Rcase_abs _); intro; lra). destruct A as [A|A]; apply eq_IZR in A; lia. }
  split; [intro q; split; [exact (one_exp 2 (Some (1 / 4 - small q / 10)))|reflexivity]|]. split; [exact (one_exp 2 (Some (1 / 4)))|].
  split; [apply (cv_lim _ (1 / 4 - 0 / 10)); [lra|cv; lra]|]. eexists _, _. reflexivity.
Qed.
