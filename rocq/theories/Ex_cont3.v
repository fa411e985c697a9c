(** * TTVOrbits whose parameters approach a limit *)
From Coq Require Import Reals Lra Lia Psatz List Bool Arith ZArith Sorted String.
From Verif Require Import Num CoreOps Inst CoreFlux M_units M_kepler M_kwargs M_fin M_tensor M_limbdark M_ttv Spec_orbit Spec_params Spec_array Spec_light Spec_delay Spec_ttv Spec_cont Spec_cont2 Spec_ttvmove
  L_real L_params3 L_array L_ptransit L_light8 L_light9 L_ttv1 L_ttv2 L_ttv3 L_ttv4 L_ttv5 L_ttv6 L_ttv8 L_transit6 L_cont L_cont3 L_cont4 L_cont6 L_cont7 L_ttvmove L_ttvmove2 L_ttvmove3 Ex_orbit Ex_system Ex_sym Ex_cont Ex_ttvmove.
Import ListNotations.
Open Scope R_scope.
Local Notation length := List.length.

Lemma motion_near k n o os tts near : consts_ok k -> ttv_system k n o os tts -> nearest_transits n tts near ->
  ttv_motion k n o (fun b j t => pos k (os j) b (orbit_time os near j t) None false) (fun b j t => vel (os j) b (orbit_time os near j t)).
Proof.
  intros kok sys Hn N t ts b Ht Hts. destruct (ttv_tables k n N o os tts t ts kok sys Ht Hts) as (v & Hv & T). destruct (T b) as [T1 T2].
  assert (E : forall m j, (m < N)%nat -> (j < n)%nat -> v m j = near j (ts m)).
  { intros m j Hm Hj. apply (nearest_unique (tts j) (ts m)); [apply Hv; assumption|apply Hn, Hj]. }
  split; [destruct T1 as ((S1 & A1) & (S2 & A2) & (S3 & A3))|destruct T2 as ((S1 & A1) & (S2 & A2) & (S3 & A3))];
    (split; [|split]; (split; [assumption|]); intros m j Hm Hj; unfold orbit_time; rewrite <- (E m j Hm Hj); auto).
Qed.

(** impact parameters, transits and times that change by e *)
Definition tilt (e : R) (j : nat) : R := ex_bs j * (1 - e).
Definition ex_nttvs (e : R) : list (list fl) := [[Fin e; Fin (1 / 2); Fin 0]; [Fin 1; Fin e]].
Definition ex_ntts (e : R) (j : nat) : list R := match j with O => [2 + e; 25 / 2; 22; 32] | _ => [3; 12; 22 + e] end.
Definition ex_nx (e : R) : targs := targs_of (Some (ex_nttvs e)) None (Some ex_inds) (ex_tkw 2 (tilt e)).
Lemma tilt_ok e j : 0 <= e <= 1 / 2 -> 0 <= tilt e j <= 2.
Proof. intro H. unfold tilt. assert (0 <= ex_bs j <= 2) by (destruct j; cbn; lra). nra. Qed.
Definition ex_pick (o0 : orbit R) (e : R) (j : nat) : orbit R := match kep_init ek (ex_b_args (tilt e j)) with Ok o => o | Err _ => o0 end.
Lemma ex_nsystem o0 e : 0 <= e <= 1 / 2 -> system ek 2 (ex_targs 2 (tilt e)) (fun j => ex_b_args (tilt e j)) (ex_pick o0 e) /\
  forall j, kep_init ek (ex_b_args (tilt e j)) = Ok (ex_pick o0 e j) /\ o_period (ex_pick o0 e j) = 10 /\ o_t0 (ex_pick o0 e j) = 2 /\ o_ecc (ex_pick o0 e j) = None /\ o_r_star (ex_pick o0 e j) = 1 /\ 2 < o_a (ex_pick o0 e j).
Proof.
  intro He. assert (K : forall j, kep_init ek (ex_b_args (tilt e j)) = Ok (ex_pick o0 e j) /\ physical (ex_pick o0 e j) /\ o_period (ex_pick o0 e j) = 10 /\ o_t0 (ex_pick o0 e j) = 2 /\ o_ecc (ex_pick o0 e j) = None /\ o_r_star (ex_pick o0 e j) = 1 /\ 2 < o_a (ex_pick o0 e j)).
  { intro j. destruct (ex_b (tilt e j) (tilt_ok e j He)) as (o & A1 & A2 & A3 & A4 & A5 & A6 & A7 & A8 & A9 & A10 & A11). unfold ex_pick. rewrite A1. tauto. }
  split.
  - constructor.
    + lia.
    + constructor; cbn; try exact I; try reflexivity; first [apply vector_pp|apply scalar_pp|left; reflexivity].
    + intros [|[|j]] Hj; [| |lia]; reflexivity.
    + intros j Hj. apply (K j).
    + intros j Hj. apply (K j).
    + intros j Hj; left; reflexivity.
  - intro j. destruct (K j) as (A & _ & B). split; [exact A|exact B].
Qed.
Lemma ex_nttv o0 e : 0 <= e <= 1 / 2 -> exists o, ttv_init ek (ex_nx e) = Ok o /\ ttv_system ek 2 o (ex_pick o0 e) (ex_ntts e).
Proof.
  intro He. destruct (ex_nsystem o0 e He) as [Sy _].
  assert (Q : kep_call ek (ex_tkw 2 (tilt e)) = kep_init ek (ex_targs 2 (tilt e))) by reflexivity.
  destruct (kep_call ek (ex_tkw 2 (tilt e))) as [ob|] eqn:K; [|discriminate K].
  assert (E1 : o_t0 ob = vector 2 (fun _ => 2)) by (apply (call_t0 ek _ _ _ K); reflexivity).
  assert (E2 : o_period ob = vector 2 (fun _ => 10)) by (apply (call_period ek _ _ _ K); reflexivity).
  assert (G : exists o, ttv_init ek (ex_nx e) = Ok o /\ tt_orbit o = ob /\ tt_period o = vector 2 (fun _ => 10) /\ tt_all o = map (fun j => map Fin (ex_ntts e j)) (seq 0 2)).
  { clear Q Sy. unfold ttv_init. cbn [ta_ttvs ta_inds ta_times ta_kw targs_of ex_nx]. rewrite K. clear K. cbn [rbind]. unfold ttv_finish. rewrite E1, E2.
    eexists. split; [reflexivity|]. split; [reflexivity|]. split; [reflexivity|]. cbn. unfold Pos.to_nat. cbn. repeat match goal with |- _ :: _ = _ :: _ => apply f_equal2 | |- Fin _ = Fin _ => apply f_equal end; try reflexivity; lra. }
  destruct G as (o & G1 & G2 & G3 & G4). exists o. split; [exact G1|]. constructor.
  - eexists. exact G1.
  - exists (ex_targs 2 (tilt e)), (fun j => ex_b_args (tilt e j)). split; [rewrite G2, <- Q; reflexivity|exact Sy].
  - exact G4.
  - intros [|[|j]] Hj; [| |lia]; cbn; repeat (constructor; [|repeat (constructor; [lra|]); constructor]); constructor.
  - exists (fun _ => 10). split; [|intros; lra]. rewrite G3. apply vector_values.
Qed.
Lemma tilt_tends j : args_tend (fun q => ex_b_args (tilt (small q) j)) (ex_b_args (tilt 0 j)).
Proof.
  assert (C := small_cv). constructor; cbn; given; try (split; [intro; reflexivity|]); cbn; try (unfold tilt; cv).
Qed.
Lemma ntts_tend j : lists_tend (fun q => ex_ntts (small q) j) (ex_ntts 0 j).
Proof.
  assert (C := small_cv). split; [intro q; destruct j; reflexivity|]. destruct j as [|j].
  - intros [|[|[|[|i]]]] Hi; cbn in *; try lia; cv.
  - intros [|[|[|i]]] Hi; cbn in *; try lia; cv.
Qed.
Definition ex_ntimes (e : R) : list (list fl) := [[Fin (2 + e); Fin (25 / 2); Fin 32]; [Fin 3; Fin (22 + e)]].
Definition ex_nxt (e : R) : targs := targs_of None (Some (ex_ntimes e)) (Some ex_inds) (ex_kw 2 ex_bs).
Lemma fit_near_example : exists os o, (forall q, ttv_init ek (ex_nxt (small q)) = Ok (os q) /\ ta_ttvs (ex_nxt (small q)) = None /\ ta_times (ex_nxt (small q)) = Some (ex_ntimes (small q)) /\
    nth_error (ex_ntimes (small q)) 0 = Some (map Fin [2 + small q; 25 / 2; 32]) /\ given_labels (ex_nxt (small q)) 0 (map Fin [2 + small q; 25 / 2; 32]) = Some [0; 1; 3]%Z) /\
  ttv_init ek (ex_nxt 0) = Ok o /\ ta_ttvs (ex_nxt 0) = None /\ ta_times (ex_nxt 0) = Some (ex_ntimes 0) /\ nth_error (ex_ntimes 0) 0 = Some (map Fin [2 + 0; 25 / 2; 32]) /\
  given_labels (ex_nxt 0) 0 (map Fin [2 + 0; 25 / 2; 32]) = Some [0; 1; 3]%Z /\ lists_tend (fun q => [2 + small q; 25 / 2; 32]) [2 + 0; 25 / 2; 32] /\
  (exists p q, In p [0; 1; 3]%Z /\ In q [0; 1; 3]%Z /\ p <> q).
Proof.
  assert (K : forall e, exists o, ttv_init ek (ex_nxt e) = Ok o) by (intro e; destruct (ttv_init ek (ex_nxt e)) as [o|] eqn:E; [exists o; reflexivity|discriminate E]).
  destruct (K 0) as (o & Ho). exists (fun q => match ttv_init ek (ex_nxt (small q)) with Ok o' => o' | Err _ => o end), o.
  split. { intro q. destruct (K (small q)) as (o' & E). rewrite E. repeat split; reflexivity. }
  split; [exact Ho|]. split; [reflexivity|]. split; [reflexivity|]. split; [reflexivity|]. split; [reflexivity|].
  split. { assert (C := small_cv). split; [reflexivity|]. intros [|[|[|i]]] Hi; cbn in *; try lia; cv. }
  exists 0%Z, 1%Z. cbn. split; [auto|]. split; [auto|discriminate].
Qed.

Lemma ttv_near_example : exists o os X V o' ps X' V', consts_ok ek /\
  (forall q, ttv_init ek (ex_nx (small q)) = Ok (o q) /\ ttv_system ek 2 (o q) (os q) (ex_ntts (small q)) /\ ttv_motion ek 2 (o q) (X q) (V q)) /\
  ttv_init ek (ex_nx 0) = Ok o' /\ ttv_system ek 2 o' ps (ex_ntts 0) /\ ttv_motion ek 2 o' X' V' /\
  (forall j, (j < 2)%nat -> (forall q, kep_init ek (ex_b_args (tilt (small q) j)) = Ok (os q j)) /\ kep_init ek (ex_b_args (tilt 0 j)) = Ok (ps j) /\ args_tend (fun q => ex_b_args (tilt (small q) j)) (ex_b_args (tilt 0 j)) /\
    duration_fits ek (ex_b_args (tilt 0 j)) (ps j) /\ sinw_of (ps j) <> -1 /\ lists_tend (fun q => ex_ntts (small q) j) (ex_ntts 0 j)) /\
  (* half way between transits that are a whole period apart, and not half way *)
  (forall u v, consecutive (ex_ntts 0 0) u v -> 27 = (u + v) / 2 -> whole (v - u) (o_period (ps 0%nat))) /\ consecutive (ex_ntts 0 0) 22 32 /\
  (forall u v, consecutive (ex_ntts 0 0) u v -> 3 = (u + v) / 2 -> whole (v - u) (o_period (ps 0%nat))) /\
  disk_flux (3 / 10) (2 / 10) <> 0 /\ elements 2 (vector 2 (fun _ => 1 / 10)) (fun _ => 1 / 10) /\
  (forall j, (j < 2)%nat -> Un_cv (fun q => 1 / 10 + small q) (1 / 10) /\ o_r_star (ps j) + Rabs (1 / 10) < o_a (ps j) * (1 - ecc_of (ps j))) /\
  (forall j u v, (j < 2)%nat -> consecutive (ex_ntts 0 j) u v -> meets (3 / 10) (2 / 10) ek (ps j) (1 / 10) (v - u)).
Proof.
  destruct (ex_b 0 ltac:(lra)) as (o0 & _).
  destruct (ex_nttv o0 0 ltac:(lra)) as (o' & Ho' & Sy').
  set (o := fun q => match ttv_init ek (ex_nx (small q)) with Ok w => w | Err _ => o' end).
  assert (Hsm : forall q, 0 <= small q <= 1 / 2) by (intro q; assert (Q := small_pos q); lra).
  assert (Ho : forall q, ttv_init ek (ex_nx (small q)) = Ok (o q) /\ ttv_system ek 2 (o q) (ex_pick o0 (small q)) (ex_ntts (small q))).
  { intro q. destruct (ex_nttv o0 (small q) (Hsm q)) as (w & E & S). unfold o. rewrite E. split; [reflexivity|exact S]. }
  set (near := fun q j s => match look (o q) j (Fin s) with Fin v => v | _ => 0 end).
  assert (Hn : forall q, nearest_transits 2 (ex_ntts (small q)) (near q)). { intros q j s Hj. destruct (look_ok ek 2 _ _ _ (proj2 (Ho q)) j s Hj) as (v & E & Nv). unfold near. rewrite E. exact Nv. }
  destruct (motion_known ek 2 o' _ _ ek_ok Sy') as (X' & V' & HM').
  exists o, (fun q => ex_pick o0 (small q)), (fun q b j t => pos ek (ex_pick o0 (small q) j) b (orbit_time (ex_pick o0 (small q)) (near q) j t) None false), (fun q b j t => vel (ex_pick o0 (small q) j) b (orbit_time (ex_pick o0 (small q)) (near q) j t)), o', (ex_pick o0 0), X', V'.
  destruct (ex_nsystem o0 0 ltac:(lra)) as [_ F].
  split; [exact ek_ok|]. split. { intro q. destruct (Ho q) as [H1 H2]. split; [exact H1|]. split; [exact H2|]. apply (motion_near ek 2 (o q) (ex_pick o0 (small q)) (ex_ntts (small q)) (near q) ek_ok H2 (Hn q)). }
  split; [exact Ho'|]. split; [exact Sy'|]. split; [exact HM'|].
  split. { intros j Hj. split; [intro q; apply (proj2 (ex_nsystem o0 (small q) (Hsm q)) j)|]. split; [apply F|]. split; [apply tilt_tends|]. split; [left; left; reflexivity|]. split; [|apply ntts_tend].
    destruct (F j) as (_ & _ & _ & A & _). unfold sinw_of. rewrite A. lra. }
  destruct (F 0%nat) as (F0 & F1 & F2 & F3 & F4 & F5).
  assert (So := tv_inc _ _ _ _ _ Sy' 0%nat ltac:(lia)).
  split. { intros u v (i & E1 & E2) H. destruct i as [|[|[|[|i]]]]; cbn in E1, E2; try discriminate; try (destruct i; discriminate); injection E1 as <-; injection E2 as <-; try (exfalso; lra). exists 1%Z. rewrite F1. lra. }
  split. { exists 2%nat. split; reflexivity. }
  split. { intros u v (i & E1 & E2) H. destruct i as [|[|[|[|i]]]]; cbn in E1, E2; try discriminate; try (destruct i; discriminate); injection E1 as <-; injection E2 as <-; exfalso; lra. }
  split; [exact disk_example|]. split; [apply elements_vector|].
  split. { intros j Hj. split; [assert (C := small_cv); apply (cv_lim _ (1 / 10 + 0)); [lra|cv]|]. destruct (F j) as (_ & _ & _ & A & B & D). unfold ecc_of. rewrite A, B, Rabs_pos_eq by lra. lra. }
  intros j u v Hj _. apply (meets_when ek 2 o' (ex_pick o0 0) (ex_ntts 0) (3 / 10) (2 / 10) j (1 / 10) (v - u) ek_ok Sy' disk_example Hj ltac:(lra)). left. apply (F j).
Qed.

Lemma const_args (x : kargs R) : args_tend (fun _ => x) x.
Proof.
  assert (G : forall v : option R, given_tends Un_cv (fun _ => v) v). { intros [v|]; cbn; [exists (fun _ => v); split; [reflexivity|apply cv_const]|reflexivity]. }
  assert (H : forall v : option (qty R), given_tends qty_tends (fun _ => v) v). { intros [v|]; cbn; [exists (fun _ => v); split; [reflexivity|split; [reflexivity|apply cv_const]]|reflexivity]. }
  constructor; first [apply G|apply H|reflexivity].
Qed.
Lemma ttv_middle_jump : ~ (forall k n o os tts X V o' ps tts' X' V' xs x j b ts t, consts_ok k ->
  (forall q, ttv_system k n (o q) (os q) (tts q) /\ ttv_motion k n (o q) (X q) (V q)) -> ttv_system k n o' ps tts' -> ttv_motion k n o' X' V' -> (j < n)%nat ->
  (forall q, kep_init k (xs q) = Ok (os q j)) -> kep_init k x = Ok (ps j) -> args_tend xs x -> duration_fits k x (ps j) -> sinw_of (ps j) <> -1 ->
  lists_tend (fun q => tts q j) (tts' j) -> Un_cv ts t -> vec_tends (fun q => X q b j (ts q)) (X' b j t)).
Proof.
  intro H. destruct (ex_b 0 ltac:(lra)) as (o0 & _). destruct (ex_nttv o0 0 ltac:(lra)) as (o & Ho & sys). destruct (ex_nsystem o0 0 ltac:(lra)) as [Sy F].
  destruct (motion_known ek 2 o _ _ ek_ok sys) as (X & V & HM). destruct (F 0%nat) as (F0 & F1 & F2 & F3 & F4 & F5).
  assert (C1 : consecutive (ex_ntts 0 0) (2 + 0) (25 / 2)) by (exists 0%nat; split; reflexivity).
  assert (NW : ~ whole (25 / 2 - (2 + 0)) (o_period (ex_pick o0 0 0%nat))).
  { intros (z & E). rewrite F1 in E. assert (E' : IZR (20 * z) = IZR 21) by (rewrite mult_IZR; lra). apply eq_IZR in E'. lia. }
  apply NW. apply (proj1 (steady_iff ek 2 o _ _ ek_ok sys X V HM 0%nat (2 + 0) (25 / 2) ltac:(lia) C1)). intros ts Ct.
  apply (H ek 2%nat (fun _ => o) (fun _ => ex_pick o0 0) (fun _ => ex_ntts 0) (fun _ => X) (fun _ => V) o (ex_pick o0 0) (ex_ntts 0) X V (fun _ => ex_b_args (tilt 0 0)) (ex_b_args (tilt 0 0)) 0%nat Relative ts _ ek_ok); try assumption; try lia.
  - intro q. split; assumption.
  - intro q. exact F0.
  - apply const_args.
  - left. left. reflexivity.
  - unfold sinw_of. rewrite F3. lra.
  - split; [reflexivity|]. intros i Hi. apply cv_const.
Qed.
