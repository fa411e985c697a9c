(** * A larger planet than the SimpleTransitOrbit was told; a system *)
From Coq Require Import Reals Lra Lia Psatz List Bool Arith ZArith.
From Coquelicot Require Import Coquelicot.
From Verif Require Import Num CoreOps Inst CoreFlux M_units M_kepler M_fin M_tensor M_limbdark M_simple M_ttv Spec_orbit Spec_params Spec_array Spec_light Spec_simple Spec_depth Spec_delay Spec_lip
  L_real L_flux L_orbit L_area L_depth L_lip L_light1 L_light4 L_light8 L_light9 L_depth2 L_depth3 L_simple L_simple2 L_transit6 L_lip2 L_lip3 Ex_orbit Ex_system Ex_sym.
Import ListNotations.
Open Scope R_scope.

Lemma flat_contact c : 1 <= c <= 11 / 10 -> rel_flux 0 0 c (2 / 10) 1 <= - (1 / 400).
Proof.
  intro Hc. assert (Hpi := PI_RGT_0). assert (Hd : disk_flux 0 0 <> 0) by (rewrite uniform_disk; lra). rewrite rel_hidden by (try assumption; lra). rewrite uniform_disk. rewrite !Rabs_pos_eq by lra.
  set (g := intensity 0 0). assert (gc : forall z, continuous g z) by (intro z; apply intensity_cont). assert (G1 : forall mu, g mu = 1) by (intro mu; unfold g, intensity; ring).
  assert (A : 1 * (PI * (1 / 20 * (1 / 20))) <= hidden_flux g (c - 3 / 20) (1 / 20)) by (apply hidden_flux_lower; try lra; try exact gc; intros rho _ _; rewrite G1; lra).
  assert (B : hidden_flux g (c - 3 / 20) (1 / 20) <= hidden_flux g c (2 / 10)).
  { apply RInt_le; [lra|apply hidden_int1; try lra; exact gc|apply hidden_int1; try lra; exact gc|]. intros rho Hr. rewrite !G1. apply Rmult_le_compat_l; [lra|]. apply Rmult_le_compat_r; [lra|].
    assert (S := hidden_shift (c - 3 / 20) c (1 / 20) rho ltac:(lra) ltac:(lra) ltac:(lra) ltac:(lra)). rewrite Rabs_left1 in S by lra. replace (1 / 20 + - (c - 3 / 20 - c)) with (2 / 10) in S by lra. exact S. }
  apply (Rmult_le_reg_r PI); [exact Hpi|]. replace (- hidden_flux g c (2 / 10) / PI * PI) with (- hidden_flux g c (2 / 10)) by (field; lra). lra.
Qed.
Lemma contact_jump : ~ (forall u1 u2 n x xs r rs, disk_flux u1 u2 <> 0 -> simple_system n x xs -> (forall j, (j < n)%nat -> simple_ok (xs j)) ->
  elements n r rs -> (forall j, (j < n)%nat -> 0 <= rs j) ->
  exists C, forall N t ts t' ts', is_vector N t -> (forall m, (m < N)%nat -> aget t (at_time m) = Fin (ts m)) -> is_vector N t' -> (forall m, (m < N)%nat -> aget t' (at_time m) = Fin (ts' m)) ->
    close_tables n N (get_light_curve (ld_init (Fin u1) (Fin u2)) (Some (simple_api (simple_init x))) (Some r) (Some t) None 7 0 (Some false) false)
      (get_light_curve (ld_init (Fin u1) (Fin u2)) (Some (simple_api (simple_init x))) (Some r) (Some t') None 7 0 (Some false) false) (fun m j => C * Rabs (ts m - ts' m))).
Proof.
  intro H. assert (Hpi := PI_RGT_0). assert (Hd : disk_flux 0 0 <> 0) by (rewrite uniform_disk; lra). destruct simple_example as (Sy & Ok_ & _).
  specialize (H 0 0 2%nat _ _ (vector 2 (fun _ => 2 / 10)) (fun _ => 2 / 10) Hd Sy Ok_ (elements_vector _ _) ltac:(intros; lra)). destruct H as (C & H).
  set (h := / (800 * (1 + Rabs C) * 2)). assert (C0 := Rabs_pos C). assert (D0 : 0 < 800 * (1 + Rabs C) * 2) by lra. assert (h0 : 0 < h) by (apply Rinv_0_lt_compat; exact D0).
  assert (hE : h * (800 * (1 + Rabs C) * 2) = 1) by (unfold h; field; lra). assert (h1 : h <= 1 / 1600) by nra.
  specialize (H 1%nat (vector 1 (fun _ => 5 / 2 - h)) (fun _ => 5 / 2 - h) (vector 1 (fun _ => 5 / 2)) (fun _ => 5 / 2) (vector_is _ _) (fun m Hm => vector_at _ _ m Hm) (vector_is _ _) (fun m Hm => vector_at _ _ m Hm)).
  destruct (simple_answers _ _ _ Sy Ok_) as [HA Hs].
  assert (Rp : forall j, (j < 2)%nat -> 0 < dflt 1 (sa_r_star (ex_simple (INR j / 2)))) by (intros j Hj; cbn; lra).
  assert (None_ok : forall N, opt_exposures N None (fun _ => 0)) by (intros N m; reflexivity).
  destruct (curve_of 0 0 _ false 2 _ _ _ _ 1 _ _ None _ 7 0 Hd HA Hs Rp (elements_vector 2 (fun _ => 2 / 10)) (vector_is 1 (fun _ => 5 / 2 - h)) (fun m Hm => vector_at 1 (fun _ => 5 / 2 - h) m Hm) (None_ok _) ltac:(intro Q; contradiction Q; reflexivity)) as (X & f & EX & TX & F).
  destruct (curve_of 0 0 _ false 2 _ _ _ _ 1 _ _ None _ 7 0 Hd HA Hs Rp (elements_vector 2 (fun _ => 2 / 10)) (vector_is 1 (fun _ => 5 / 2)) (fun m Hm => vector_at 1 (fun _ => 5 / 2) m Hm) (None_ok _) ltac:(intro Q; contradiction Q; reflexivity)) as (X' & f' & EX' & TX' & F').
  destruct H as (Y & Y' & g & g' & EY & EY' & TY & TY' & B). rewrite EX in EY. injection EY as <-. rewrite EX' in EY'. injection EY' as <-.
  specialize (B 0%nat 0%nat ltac:(lia) ltac:(lia)).
  assert (G : g 0%nat 0%nat = f 0%nat 0%nat). { assert (A1 := proj2 TX 0%nat 0%nat ltac:(lia) ltac:(lia)). assert (A2 := proj2 TY 0%nat 0%nat ltac:(lia) ltac:(lia)). rewrite A1 in A2. injection A2. auto. }
  assert (G' : g' 0%nat 0%nat = f' 0%nat 0%nat). { assert (A1 := proj2 TX' 0%nat 0%nat ltac:(lia) ltac:(lia)). assert (A2 := proj2 TY' 0%nat 0%nat ltac:(lia) ltac:(lia)). rewrite A1 in A2. injection A2. auto. }
  rewrite G, G', F, F' in B. clear G G' F F' TX TX' TY TY' EX EX'.
  set (x := ex_simple (INR 0 / 2)) in *. assert (okx : simple_ok x) by (apply Ok_; lia).
  assert (S1 : sdt x (5 / 2 - h) = 1 / 2 - h). { replace (5 / 2 - h) with (smid x 0 + (1 / 2 - h)) by (unfold smid, x; cbn; lra). apply sdt_mid; cbn; lra. }
  assert (S2 : sdt x (5 / 2) = 1 / 2). { replace (5 / 2) with (smid x 0 + 1 / 2) by (unfold smid, x; cbn; lra). apply sdt_mid; cbn; lra. }
  assert (V : sspeed x = 22 / 10). { rewrite (sspeed_chord x okx). unfold chord_speed, x. cbn. replace (((1 + 1 / 10) * (1 + 1 / 10)) - 0 / 2 * (0 / 2)) with (11 / 10 * (11 / 10)) by lra. rewrite sqrt_square by lra. lra. }
  assert (E2 : flux_at 0 0 (spos x (5 / 2)) (2 / 10) (dflt 1 (sa_r_star x)) = 0).
  { unfold flux_at. apply rel_flux_out; [exact Hd|right]. rewrite spos_eq, S2. unfold vz. cbn [snd]. rewrite Rabs_pos_eq by lra. unfold Rltb. destruct (Rlt_dec (1 / 2) (0.5 * sa_duration x)) as [q|q]; [cbn in q; lra|]. cbn. lra. }
  assert (E1 : flux_at 0 0 (spos x (5 / 2 - h)) (2 / 10) (dflt 1 (sa_r_star x)) <= - (1 / 400)).
  { unfold flux_at. rewrite spos_eq, S1, V. unfold vx, vy, vz. cbn [fst snd]. replace (dflt 1 (sa_r_star x)) with 1 by reflexivity. replace (dflt 0 (sa_b x)) with 0 by (cbn; lra).
    rewrite Rabs_pos_eq by lra. unfold Rltb. destruct (Rlt_dec (1 / 2 - h) (0.5 * sa_duration x)) as [q|q]; [|cbn in q; lra].
    replace (22 / 10 * (1 / 2 - h) * (22 / 10 * (1 / 2 - h)) + (0 * 1 + 0) * (0 * 1 + 0)) with (22 / 10 * (1 / 2 - h) * (22 / 10 * (1 / 2 - h))) by ring.
    rewrite sqrt_square by lra. rewrite !Rdiv_1. apply flat_contact. lra. }
  rewrite E2, Rminus_0_r in B. rewrite (Rabs_left1 (flux_at _ _ _ _ _)) in B by lra. replace (5 / 2 - h - 5 / 2) with (- h) in B by ring. rewrite Rabs_Ropp, (Rabs_pos_eq h) in B by lra.
  assert (Cle := Rle_abs C). assert (C * h <= Rabs C * h) by (apply Rmult_le_compat_r; lra). nra.
Qed.
Lemma lip_example : exists os o, disk_flux (3 / 10) (2 / 10) <> 0 /\ consts_ok ek /\
  system ek 2 (ex_full_sys 2 ex_bs 2 1 1 (1 / 2)) (fun j => ex_full_args (ex_bs j) 2 1 1 (1 / 2)) os /\
  kep_init ek (ex_full_sys 2 ex_bs 2 1 1 (1 / 2)) = Ok o /\
  elements 2 (vector 2 (fun _ => 1 / 10)) (fun _ => 1 / 10) /\
  (forall j, (j < 2)%nat -> 0 <= 1 / 10 /\ o_r_star (os j) + 1 / 10 <= o_a (os j) * (1 - ecc_of (os j))) /\
  is_vector 3 (vector 3 INR) /\ (forall m, (m < 3)%nat -> aget (vector 3 INR) (at_time m) = Fin (INR m)) /\
  is_vector 3 (vector 3 (fun m => INR m + 1 / 100)) /\ (forall m, (m < 3)%nat -> aget (vector 3 (fun m => INR m + 1 / 100)) (at_time m) = Fin (INR m + 1 / 100)) /\
  opt_exposures 3 (one_texp (Some (1 / 4))) (fun _ => 1 / 4) /\ exists nodes weights, stencil 7 2 = Ok (nodes, weights).
Proof.
  destruct (ex_b 0 ltac:(lra)) as (o0 & A1 & A2 & A3 & A4 & A5 & A6 & A7 & A8 & A9 & A10 & A11).
  destruct (ex_b 2 ltac:(lra)) as (o1 & B1 & B2 & B3 & B4 & B5 & B6 & B7 & B8 & B9 & B10 & B11).
  apply ex_full in A1. apply ex_full in B1.
  assert (S : system ek 2 (ex_full_sys 2 ex_bs 2 1 1 (1 / 2)) (fun j => ex_full_args (ex_bs j) 2 1 1 (1 / 2)) (fun j => match j with O => o0 | _ => o1 end)).
  { constructor.
    - lia.
    - apply full_batch.
    - apply full_batch.
    - intros [|[|j]] Hj; [| |lia]; assumption.
    - intros [|[|j]] Hj; [| |lia]; assumption.
    - intros j Hj; left; reflexivity. }
  destruct (L_transit3.system_orbit _ _ _ _ _ ek_ok S) as (o & Ho & _).
  assert (Fa : forall o b, kep_init ek (ex_full_args b 2 1 1 (1 / 2)) = Ok o -> o_r_star o = 1).
  { intros o' b C. apply (f_equal (fun r => match r with Ok o => o_r_star o | Err _ => 0 end)) in C. rewrite <- C. reflexivity. }
  exists (fun j => match j with O => o0 | _ => o1 end), o.
  split; [apply disk_example|]. split; [exact ek_ok|]. split; [exact S|]. split; [exact Ho|]. split; [apply elements_vector|]. split.
  { intros [|[|j]] Hj; [| |lia]; (split; [lra|]); [rewrite (Fa _ _ A1)|rewrite (Fa _ _ B1)]; unfold ecc_of; [rewrite A5|rewrite B5]; lra. }
  split; [apply vector_is|]. split; [apply vector_at|]. split; [apply vector_is|]. split; [apply vector_at|]. split; [exact (one_exp 3 (Some (1 / 4)))|]. eexists _, _. reflexivity.
Qed.
Lemma simple_lip_example : simple_system 2 (ex_simples (fun j => INR j / 2)) (fun j => ex_simple (INR j / 2)) /\ (forall j, (j < 2)%nat -> simple_ok (ex_simple (INR j / 2))) /\
  (forall j, (j < 2)%nat -> 0 <= 1 / 10 <= dflt 0 (sa_ror (ex_simple (INR j / 2))) * dflt 1 (sa_r_star (ex_simple (INR j / 2)))).
Proof. destruct simple_example as (A & B & _). split; [exact A|]. split; [exact B|]. intros j _. cbn. lra. Qed.
