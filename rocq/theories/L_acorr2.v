(** * autocorr_estimator: the curve; a missed period *)
From Coq Require Import Reals List Bool Arith ZArith Lia Lra Sorted.
From Verif Require Import Num CoreOps Inst M_peaks M_acf M_acorr Spec_acf Spec_acorr L_params3 L_real L_acf1 L_acf2 L_acorr1.
Import ListNotations.
Open Scope R_scope.

Lemma sorted_nth (x : list R) i j : StronglySorted Rlt x -> (i < j < length x)%nat -> nth i x 0 < nth j x 0.
Proof.
  intro S. revert i j. induction S as [|a l S IH F]; intros i j H; [cbn in H; lia|]. destruct j as [|j]; [lia|]. destruct i as [|i]; cbn [nth].
  - rewrite Forall_forall in F. apply F, nth_In. cbn in H. lia.
  - apply IH. cbn in H. lia.
Qed.
Lemma least_first x a : StronglySorted Rlt x -> least x a -> a = nth 0 x 0.
Proof.
  intros S [I M]. destruct (In_nth x a 0 I) as ([|i] & Hi & <-); [reflexivity|]. assert (H := sorted_nth x 0 (Datatypes.S i) S ltac:(lia)). specialize (M (nth 0 x 0) ltac:(apply nth_In; lia)). lra.
Qed.
Lemma greatest_last x a : StronglySorted Rlt x -> greatest x a -> a = nth (length x - 1) x 0.
Proof.
  intros S [I M]. destruct (In_nth x a 0 I) as (i & Hi & <-). destruct (Nat.eq_dec i (length x - 1)) as [->|N]; [reflexivity|]. assert (H := sorted_nth x i (length x - 1) S ltac:(lia)). specialize (M (nth (length x - 1) x 0) ltac:(apply nth_In; lia)). lra.
Qed.
Lemma amin_total x : x <> [] -> exists a, amin x = Ok a. Proof. destruct x; [contradiction|]. intros _. eexists. reflexivity. Qed.
Lemma amax_total x : x <> [] -> exists a, amax x = Ok a. Proof. destruct x; [contradiction|]. intros _. eexists. reflexivity. Qed.
Lemma interp1_segment x : forall y q, StronglySorted Rlt x -> length x = length y -> (2 <= length x)%nat -> nth 0 x 0 <= q < nth (length x - 1) x 0 -> on_segment x y q (interp1 x y q).
Proof.
  induction x as [|x0 [|x1 x] IH]; intros y q S L L2 H; cbn [length] in L2; try lia. destruct y as [|y0 [|y1 y]]; try discriminate L. assert (EQ : interp1 (x0 :: x1 :: x) (y0 :: y1 :: y) q = if Rltb q x0 then y0 else if Rltb q x1 then (y1 - y0) / (x1 - x0) * (q - x0) + y0 else interp1 (x1 :: x) (y1 :: y) q) by reflexivity. rewrite EQ. clear EQ.
  assert (X01 : x0 < x1) by exact (sorted_nth (x0 :: x1 :: x) 0 1 S ltac:(cbn; lia)). cbn [nth] in H.
  destruct (Rltb_dec q x0) as [[_ Q0]|[-> Q0]]; [lra|]. destruct (Rltb_dec q x1) as [[-> Q]|[-> Q]].
  - exists 0%nat. split; [cbn; lia|]. cbn [nth]. split; [lra|]. field. lra.
  - destruct x as [|x2 x]. { cbn in H. lra. } destruct y as [|y2 y]; [cbn in L; lia|]. assert (G : on_segment (x1 :: x2 :: x) (y1 :: y2 :: y) q (interp1 (x1 :: x2 :: x) (y1 :: y2 :: y) q)).
    { apply IH; [apply StronglySorted_inv in S; apply S|cbn in L |- *; lia|cbn; lia|]. cbn [nth length Nat.sub] in H |- *. split; [lra|]. apply H. }
    destruct G as (i & Hi & B & E). exists (Datatypes.S i). split; [cbn [length] in *; lia|]. split; [exact B|exact E].
Qed.
Theorem est_curve : forall gf x y minp maxp ov sm mp, StronglySorted Rlt x -> (2 <= length x)%nat -> length x = length y -> 0 < ov ->
  exists d n vs pmin out, min_spacing x d /\ 0 < d /\ lower_limit x minp pmin /\ let dx := d / ov in
    (INR n - 1) * dx < nth (length x - 1) x 0 - nth 0 x 0 <= INR n * dx /\
    length vs = n /\ (forall k, (k < n)%nat -> on_segment x y (nth 0 x 0 + INR k * dx) (nth k vs 0)) /\
    autocorr_estimator (Some gf) x y minp maxp ov sm mp = Ok out /\
    ac_tau out = map (fun k => INR k * dx) (seq 0 n) /\
    ac_acor out = gf (map (fun k => fdiv (Fin (acov vs k)) (Fin (acov vs 0))) (seq 0 n)) (sm * pmin / dx).
Proof.
  intros gf x y minp maxp ov sm mp S L2 L OV.
  destruct (amin_total (diff x)) as (d & ED). { destruct x as [|? [|? ?]]; cbn in L2; try lia. discriminate. }
  assert (NE : x <> []) by (destruct x; [cbn in L2; lia|discriminate]).
  destruct (amin_total x NE) as (a & EA). destruct (amax_total x NE) as (b & EB).
  assert (MS := amin_diff _ _ ED). assert (DP : 0 < d). { destruct MS as [(i & Hi & <-) _]. assert (H := sorted_nth x i (Datatypes.S i) S ltac:(lia)). lra. }
  assert (A0 := least_first _ _ S (amin_least _ _ EA)). assert (BL := greatest_last _ _ S (amax_greatest _ _ EB)).
  assert (DX : 0 < d / ov) by (apply Rdiv_lt_0_compat; lra). set (dx := d / ov) in *.
  assert (AB : a < b) by (rewrite A0, BL; apply sorted_nth; [exact S|lia]).
  assert (QP : 0 < (b - a) / dx) by (apply Rdiv_lt_0_compat; lra).
  set (n := Z.to_nat (Zceil ((b - a) / dx))). assert (ZC := Zceil_spec ((b - a) / dx)).
  assert (ZP : (0 < Zceil ((b - a) / dx))%Z) by (apply lt_IZR; lra). assert (NI : INR n = IZR (Zceil ((b - a) / dx))) by (unfold n; rewrite INR_IZR_INZ, Z2Nat.id by lia; reflexivity). rewrite <- NI in ZC.
  assert (NP : (0 < n)%nat) by (unfold n; lia).
  assert (SP : (INR n - 1) * dx < b - a <= INR n * dx). { assert (EQ : (b - a) / dx * dx = b - a) by (field; lra). rewrite <- EQ. split; [apply Rmult_lt_compat_r; lra|apply Rmult_le_compat_r; lra]. }
  set (xx := map (fun k => a + INR k * dx) (seq 0 n)). set (vs := map (interp1 x y) xx). assert (LV : length vs = n) by (unfold vs, xx; rewrite !map_length, seq_length; reflexivity).
  assert (PM : exists pmin, match minp with None => amin (diff x) | Some p => Ok p end = Ok pmin) by (destruct minp; [eexists; reflexivity|exists d; exact ED]). destruct PM as (pmin & PM).
  assert (PX : exists pmax, match maxp with None => b <- amax x ;; a <- amin x ;; Ok (b - a) | Some p => Ok p end = Ok pmax) by (destruct maxp; [eexists; reflexivity|rewrite EB, EA; eexists; reflexivity]). destruct PX as (pmax & PX).
  set (raw := map (fun k => fdiv (Fin (acov vs k)) (Fin (acov vs 0))) (seq 0 n)).
  exists d, n, vs, pmin. eexists. split; [exact MS|]. split; [exact DP|]. split. { unfold lower_limit. destruct minp; [apply Ok_inj in PM; congruence|]. apply amin_diff. exact PM. }
  cbv zeta. rewrite <- A0, <- BL. split; [exact SP|]. split; [exact LV|]. split.
  { intros k K. unfold vs. rewrite (nth_map_in (interp1 x y) xx 0 0) by (unfold xx; rewrite map_length, seq_length; exact K). unfold xx. rewrite nth_map_seq0 by exact K. apply interp1_segment; try assumption. rewrite <- A0, <- BL.
    assert (0 <= INR k * dx) by (apply Rmult_le_pos; [apply pos_INR|lra]). assert (INR k <= INR n - 1) by (assert (INR (Datatypes.S k) <= INR n) by (apply le_INR; lia); rewrite S_INR in *; lra). assert (INR k * dx <= (INR n - 1) * dx) by (apply Rmult_le_compat_r; lra). lra. }
  split; [|split].
  - rewrite est_eq, PM. cbn [rbind]. rewrite PX. cbn [rbind]. rewrite ED. cbn [rbind]. unfold Reqb at 1. destruct (Req_EM_T ov 0) as [Z0|_]; [exfalso; clear - OV Z0; lra|]. rewrite EA. cbn [rbind]. rewrite EB. cbn [rbind]. fold dx.
    unfold arange. unfold Reqb at 1. destruct (Req_EM_T dx 0) as [Z0|_]; [exfalso; rewrite Z0 in DX; exact (Rlt_irrefl 0 DX)|]. cbn [rbind]. fold n xx. unfold interp. rewrite L, Nat.eqb_refl. cbn [rbind]. fold vs. cbv beta.
    assert (EV := acf_series vs). unfold series in EV. rewrite EV by (intro Z; rewrite Z in LV; cbn in LV; lia). cbn [rbind]. rewrite LV. fold raw. cbv zeta. reflexivity.
  - cbn [ac_tau]. unfold xx. rewrite map_map. apply map_ext. intro k. rewrite <- A0. fold dx. ring.
  - reflexivity.
Qed.
Lemma est_import : forall x y minp maxp ov sm mp, autocorr_estimator None x y minp maxp ov sm mp = Err ImportErr. Proof. reflexivity. Qed.

(** a period in range is missed *)
Definition miss_x : list R := [0; 1; 2; 3; 4; 5; 6].
Definition miss_y : list R := [0; 0; 0; 3; 0; 1; 0].
Lemma miss_sorted : StronglySorted Rlt miss_x.
Proof. unfold miss_x. repeat (constructor; [|repeat (constructor; [lra|]); constructor]). constructor. Qed.
Lemma min_spacing_unique x d d' : min_spacing x d -> min_spacing x d' -> d = d'.
Proof. intros [(i & Hi & Ei) M] [(j & Hj & Ej) M']. specialize (M j Hj). specialize (M' i Hi). lra. Qed.
Lemma on_segment_unique x y q v v' : StronglySorted Rlt x -> on_segment x y q v -> on_segment x y q v' -> v = v'.
Proof.
  intros S (i & Hi & B & E) (j & Hj & B' & E'). destruct (Nat.lt_trichotomy i j) as [H|[->|H]].
  - assert (Hij : nth (Datatypes.S i) x 0 <= nth j x 0). { destruct (Nat.eq_dec (Datatypes.S i) j) as [<-|N]; [lra|]. assert (G := sorted_nth x (Datatypes.S i) j S ltac:(lia)). lra. }
    assert (j = Datatypes.S i). { destruct (Nat.eq_dec (Datatypes.S i) j) as [<-|N]; [reflexivity|]. assert (G := sorted_nth x (Datatypes.S i) j S ltac:(lia)). lra. } subst j.
    assert (G1 := sorted_nth x i (Datatypes.S i) S ltac:(lia)). assert (G2 := sorted_nth x (Datatypes.S i) (Datatypes.S (Datatypes.S i)) S ltac:(lia)). assert (EQ : q = nth (Datatypes.S i) x 0) by lra. rewrite E, E', EQ. field. lra.
  - congruence.
  - assert (j = j) by reflexivity. assert (Hij : nth (Datatypes.S j) x 0 <= nth i x 0). { destruct (Nat.eq_dec (Datatypes.S j) i) as [<-|N]; [lra|]. assert (G := sorted_nth x (Datatypes.S j) i S ltac:(lia)). lra. }
    assert (i = Datatypes.S j). { destruct (Nat.eq_dec (Datatypes.S j) i) as [<-|N]; [reflexivity|]. assert (G := sorted_nth x (Datatypes.S j) i S ltac:(lia)). lra. } subst i.
    assert (G1 := sorted_nth x j (Datatypes.S j) S ltac:(lia)). assert (G2 := sorted_nth x (Datatypes.S j) (Datatypes.S (Datatypes.S j)) S ltac:(lia)). assert (EQ : q = nth (Datatypes.S j) x 0) by lra. rewrite E, E', EQ. field. lra.
Qed.
Lemma miss_spacing : min_spacing miss_x 1.
Proof.
  split; [exists 0%nat; split; [cbn; lia|cbn; lra]|]. intros i Hi. cbn [length miss_x] in Hi. do 6 (destruct i as [|i]; [cbn; lra|]). lia.
Qed.
Lemma miss_vs : forall vs, length vs = 6%nat -> (forall k, (k < 6)%nat -> on_segment miss_x miss_y (nth 0 miss_x 0 + INR k * (1 / 1)) (nth k vs 0)) -> vs = [0; 0; 0; 3; 0; 1].
Proof.
  intros vs LV H. apply (nth_ext _ _ 0 0); [exact LV|]. intros k K. rewrite LV in K. apply (on_segment_unique miss_x miss_y _ _ _ miss_sorted (H k K)).
  exists k. split; [cbn; lia|]. do 6 (destruct k as [|k]; [cbn [nth miss_x miss_y INR]; split; [lra|field]|]). lia.
Qed.
Lemma miss_acov : map (acov [0; 0; 0; 3; 0; 1]) (seq 0 6) = [22 / 3; - (22 / 9); 1 / 9; - (4 / 3); 2 / 9; - (2 / 9)].
Proof.
  assert (M : mean_of [0; 0; 0; 3; 0; 1] = 2 / 3) by (unfold mean_of; cbn [length sum_below nth INR]; lra).
  unfold acov. rewrite M. cbn [map seq length Nat.sub Nat.add sum_below nth]. repeat (apply (f_equal2 cons); [lra|]). reflexivity.
Qed.
Theorem miss : forall gf, (forall l, gf l 0 = l) -> exists out, autocorr_estimator (Some gf) miss_x miss_y (Some 1) (Some 3) 1 0 10 = Ok out /\ ac_peaks out = [] /\
  first_of (eligible (ac_tau out) (ac_acor out) 1) 2 /\ nth 2 (ac_tau out) 0 = 2.
Proof.
  intros gf G0. destruct (est_curve gf miss_x miss_y (Some 1) (Some 3) 1 0 10 miss_sorted ltac:(cbn; lia) eq_refl ltac:(lra)) as (d & n & vs & pmin & out & MS & DP & LL & H). cbv zeta in H.
  assert (D1 : d = 1) by (apply (min_spacing_unique miss_x); [exact MS|exact miss_spacing]). subst d. destruct H as (SP & LV & SEG & E & ET & EA).
  assert (n = 6%nat). { cbn [nth length miss_x Nat.sub] in SP. assert (n < 7)%nat by (apply INR_lt; cbn [INR]; lra). assert (5 < n)%nat by (apply INR_lt; cbn [INR]; lra). lia. } subst n.
  assert (EV := miss_vs vs ltac:(lia) ltac:(intros k K; apply SEG; lia)). subst vs. cbn [length] in *. exists out. split; [exact E|].
  cbn [lower_limit] in LL. subst pmin. replace (0 * 1 / (1 / 1)) with 0 in EA by field. rewrite G0 in EA.
  assert (EA' : ac_acor out = map Fin [1; - (1 / 3); 1 / 66; - (2 / 11); 1 / 33; - (1 / 33)]).
  { rewrite EA. assert (A := miss_acov). assert (A0 : acov [0; 0; 0; 3; 0; 1] 0 = 22 / 3) by (apply (f_equal (fun l => nth 0 l 0)) in A; exact A). rewrite A0.
    transitivity (map (fun a => fdiv (Fin a) (Fin (22 / 3))) (map (acov [0; 0; 0; 3; 0; 1]) (seq 0 6))); [rewrite map_map; reflexivity|]. rewrite A. cbn [map]. unfold fdiv, Reqb. destruct (Req_EM_T (22 / 3) 0); [lra|]. repeat (apply (f_equal2 cons); [apply f_equal; lra|]). reflexivity. }
  assert (ET' : ac_tau out = [0; 1; 2; 3; 4; 5]) by (rewrite ET; cbn [map seq INR]; repeat (apply (f_equal2 cons); [lra|]); reflexivity).
  assert (EL : forall i, eligible (ac_tau out) (ac_acor out) 1 i <-> i = 2%nat \/ i = 4%nat).
  { intro i. rewrite EA', ET'. unfold eligible. cbn [map length]. split.
    - intros (I1 & I2 & F1 & F2 & _). unfold flt in *. destruct i as [|[|[|[|[|i]]]]]; try lia; cbn [nth Nat.sub Nat.add] in *; apply Rltb_true in F1; apply Rltb_true in F2; lra.
    - intros [-> | ->]; cbn [nth Nat.sub Nat.add flt]; rewrite !Rltb_true; repeat split; try lia; lra. }
  assert (F2 : first_of (eligible (ac_tau out) (ac_acor out) 1) 2). { split; [apply EL; lia|]. intros j J Ej. apply EL in Ej. lia. }
  assert (N4 : next_of (eligible (ac_tau out) (ac_acor out) 1) 2 4). { split; [apply EL; lia|]. split; [lia|]. intros j J Ej. apply EL in Ej. lia. }
  assert (H42 : higher (ac_acor out) 4 2) by (unfold higher; rewrite EA'; cbn [map nth flt]; apply Rltb_true; lra).
  split; [|split; [exact F2|rewrite ET'; reflexivity]].
  rewrite est_eq in E. cbn [rbind] in E. destruct (amin (diff miss_x)) as [d'|] eqn:E3; [|discriminate]. cbn [rbind] in E. destruct (Reqb 1 0); [discriminate|]. destruct (amin miss_x) as [a|]; [|discriminate]. cbn [rbind] in E. destruct (amax miss_x) as [b|]; [|discriminate]. cbn [rbind] in E.
  destruct (arange a b (d' / 1)) as [xx|] eqn:E6; [|discriminate]. cbn [rbind] in E. destruct (interp xx miss_x miss_y) as [yy|] eqn:E7; [|discriminate]. cbn [rbind] in E. destruct (autocorr_function _) as [ac|] eqn:E8; [|discriminate]. cbn [rbind] in E. cbv zeta in E. apply Ok_inj in E.
  assert (EP : ac_peaks out = pick (ac_tau out) (ac_acor out) 1 3) by (rewrite <- E; reflexivity). rewrite EP. destruct (pick_spec (ac_tau out) (ac_acor out) 1 3) as [[P _]|(i & P & SEL & _)]; [exact P|]. exfalso.
  destruct SEL as (T & [[Fi NH]|(f & Ff & _ & NX & _)]).
  - assert (i = 2%nat) by exact (first_unique _ _ _ Fi F2). subst i. exact (NH 4%nat N4 H42).
  - assert (f = 2%nat) by exact (first_unique _ _ _ Ff F2). subst f. assert (i = 4%nat) by exact (next_unique _ _ _ _ NX N4). subst i. rewrite ET' in T. cbn [nth] in T. lra.
Qed.
Theorem miss_refuted : forall gf, keeps_length gf -> (forall l, gf l 0 = l) ->
  ~ (forall x y pmin pmax ov sm mp out, autocorr_estimator (Some gf) x y (Some pmin) (Some pmax) ov sm mp = Ok out ->
       (exists i, eligible (ac_tau out) (ac_acor out) pmin i /\ nth i (ac_tau out) 0 <= pmax) -> ac_peaks out <> []).
Proof.
  intros gf _ G H. destruct (miss gf G) as (out & E & P & [F _] & T). apply (H _ _ _ _ _ _ _ _ E); [|exact P]. exists 2%nat. split; [exact F|lra].
Qed.
Lemma ex_not_constant : ~ constant [1; 2; 4].
Proof. intros (c & H). assert (1 = c) by (apply H; left; reflexivity). assert (2 = c) by (apply H; right; left; reflexivity). lra. Qed.
Lemma max_peaks_ignored : forall gf x y minp maxp ov sm mp mp', autocorr_estimator gf x y minp maxp ov sm mp = autocorr_estimator gf x y minp maxp ov sm mp'.
Proof. reflexivity. Qed.
Lemma est_single : forall gf x y minp maxp ov sm mp out, autocorr_estimator (Some gf) x y minp maxp ov sm mp = Ok out -> (length (ac_peaks out) <= 1)%nat.
Proof.
  intros gf x y minp maxp ov sm mp out E. rewrite est_eq in E. destruct (match minp with None => amin (diff x) | Some p => Ok p end) as [pmin|] eqn:E1; [|discriminate]. cbn [rbind] in E.
  destruct (match maxp with None => b <- amax x ;; a <- amin x ;; Ok (b - a) | Some p => Ok p end) as [pmax|] eqn:E2; [|discriminate]. cbn [rbind] in E.
  destruct (amin (diff x)) as [d|] eqn:E3; [|discriminate]. cbn [rbind] in E. destruct (Reqb ov 0); [discriminate|]. destruct (amin x) as [a|] eqn:E4; [|discriminate]. cbn [rbind] in E. destruct (amax x) as [b|] eqn:E5; [|discriminate]. cbn [rbind] in E.
  destruct (arange a b (d / ov)) as [xx|] eqn:E6; [|discriminate]. cbn [rbind] in E. destruct (interp xx x y) as [yy|] eqn:E7; [|discriminate]. cbn [rbind] in E. destruct (autocorr_function _) as [ac|] eqn:E8; [|discriminate]. cbn [rbind] in E. cbv zeta in E. apply Ok_inj in E. subst out. cbn [ac_peaks].
  destruct (pick_spec (map (fun v => v - nth 0 x 0) xx) (gf ac (sm * pmin / (d / ov))) pmin pmax) as [[-> _]|(i & -> & _)]; cbn; lia.
Qed.
