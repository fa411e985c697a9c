(** * Grids with fewer than two points *)
From Coq Require Import Reals List Bool Arith ZArith Lra Lia FunctionalExtensionality.
From Verif Require Import Num CoreOps Inst CoreFlux M_units M_kepler M_tensor M_simple M_ttv M_limbdark M_interpolated M_grid
  Spec_array Spec_light Spec_grid L_fl L_real L_shapeS L_grid1 L_grid2 L_grid4.
Import ListNotations.
Local Notation length := List.length.
Open Scope R_scope.

Lemma inside_all_ix s i : inside s i -> exists i', In i' (all_ix s) /\ forall k, (k < length s)%nat -> i' k = i k.
Proof.
  revert i. induction s as [|d s IH]; intros i H; [exists ix0; split; [left; reflexivity|cbn; lia]|].
  destruct (IH (fun k => i (S k))) as (i' & Hi & E). { intros k Hk. apply (H (S k)). cbn. lia. }
  exists (cons_ix (i O) i'). split.
  - cbn [all_ix]. apply in_flat_map. exists i'. split; [exact Hi|]. apply in_map_iff. exists (i O). split; [reflexivity|]. apply in_seq. assert (Q := H O ltac:(cbn; lia)). cbn in Q. lia.
  - intros [|k] Hk; [reflexivity|]. cbn in Hk |- *. apply E. lia.
Qed.
Lemma amap_res_err {A C} (f : A -> res C) d (a : arr A) s i : ash a = Ok s -> In i (all_ix s) -> (forall c, f (aget a i) <> Ok c) -> amap_res f d a = Err IndexErr.
Proof.
  intros HS Hi H. unfold amap_res. rewrite HS. cbn [rbind]. replace (forallb _ (all_ix s)) with false; [reflexivity|]. symmetry. apply not_true_is_false. intro Q.
  rewrite forallb_forall in Q. specialize (Q i Hi). cbn in Q. destruct (f (aget a i)) as [c|e] eqn:E; [exact (H c eq_refl)|discriminate Q].
Qed.
Lemma amap_res_cases {A C} (f : A -> res C) d (a : arr A) s : ash a = Ok s -> (exists b, amap_res f d a = Ok b) \/ amap_res f d a = Err IndexErr.
Proof. intros HS. unfold amap_res. rewrite HS. cbn [rbind]. destruct (forallb _ _); [left; eexists; reflexivity|right; reflexivity]. Qed.
Lemma grid_axis_cases g x s : ash x = Ok s -> (exists a, grid_axis g x = Ok a) \/ grid_axis g x = Err IndexErr.
Proof.
  intro HS. unfold grid_axis. cbv zeta.
  set (I := amap (zclip 0 (Z.of_nat (length g) - 2)) (amap (fun x => (searchsorted g x - 1)%Z) x)). assert (SI : ash I = Ok s) by exact HS.
  destruct (amap_res_cases (take g) NaN I s SI) as [[g0 ->]| ->]; [|right; reflexivity]. cbn [rbind].
  destruct (amap_res_cases (take g) NaN (amap (Z.add 1) I) s SI) as [[g1 ->]| ->]; [left; eexists; reflexivity|right; reflexivity].
Qed.
Lemma short_axis (g : list R) x s i v : (length g <= 1)%nat -> ash x = Ok s -> In i (all_ix s) -> aget x i = Fin v -> (length g = 0%nat \/ v <= nth 0 g 0) -> grid_axis (map Fin g) x = Err IndexErr.
Proof.
  intros HL HS Hi E H. unfold grid_axis. cbv zeta. rewrite map_length.
  set (I := amap (zclip 0 (Z.of_nat (length g) - 2)) (amap (fun x => (searchsorted (map Fin g) x - 1)%Z) x)). assert (SI : ash I = Ok s) by exact HS.
  assert (C : cnt g v = 0%nat).
  { unfold cnt. destruct g as [|a [|b g]]; [reflexivity| |cbn in HL; lia]. cbn in H |- *. unfold Rltb. destruct (Rlt_dec a v); [exfalso; destruct H as [H|H]; [lia|lra]|reflexivity]. }
  assert (EI : aget I i = 0%Z) by (cbn [I amap aget]; rewrite E, search_cnt, C; reflexivity).
  destruct (amap_res_cases (take (map Fin g)) NaN I s SI) as [[g0 ->]| ->]; [|reflexivity]. cbn [rbind].
  rewrite (amap_res_err (take (map Fin g)) NaN (amap (Z.add 1) I) s i SI Hi); [reflexivity|]. intros c Q. cbn [amap aget] in Q. rewrite EI in Q.
  destruct g as [|a [|b g]]; [| |cbn in HL; lia]; cbn in Q; discriminate Q.
Qed.
Lemma short_axes (gs : list (list R)) coords s D xs : forall n m i, ash coords = Ok (D :: s) -> (n + length gs <= D)%nat -> (m < length gs)%nat -> (length (nth m gs []) <= 1)%nat ->
  In i (all_ix s) -> aget coords (cons_ix (n + m) i) = Fin (nth (n + m) xs 0) -> (length (nth m gs []) = 0%nat \/ nth (n + m) xs 0 <= nth 0 (nth m gs []) 0) ->
  grid_axes n (map (map Fin) gs) coords = Err IndexErr.
Proof.
  induction gs as [|g gs IH]; intros n m i HS HD Hm HL Hi HV H; [cbn in Hm; lia|]. cbn [map grid_axes length] in *.
  unfold last_axis. rewrite HS. replace (Nat.ltb n D) with true by (symmetry; apply Nat.ltb_lt; lia). cbn [rbind].
  destruct m as [|m].
  - rewrite Nat.add_0_r in *. cbn [nth] in *. rewrite (short_axis g _ s i (nth n xs 0) HL); [reflexivity|reflexivity|exact Hi|exact HV|exact H].
  - destruct (grid_axis_cases (map Fin g) (mkA (Ok s) (fun i => aget coords (cons_ix n i))) s eq_refl) as [[a ->]| ->]; [|reflexivity]. cbn [rbind].
    rewrite (IH (S n) m i); try assumption; try lia; try reflexivity; replace (S n + m)%nat with (n + S m)%nat by lia; [exact HV|exact H].
Qed.
Lemma grid_short : forall gs values coords s xs fill n i, test_points (length gs) s coords xs -> twf coords ->
  (n < length gs)%nat -> inside s i -> (length (nth n gs []) = 0%nat \/ length (nth n gs []) = 1%nat /\ nth n (xs i) 0 <= nth 0 (nth n gs []) 0) ->
  regular_grid_interp (map (map Fin) gs) values coords fill = Err IndexErr.
Proof.
  intros gs values coords s xs fill n i [SC HT] W Hn Hi H. unfold regular_grid_interp. cbv zeta. rewrite SC. cbn [rmap rbind tl].
  destruct (inside_all_ix s i Hi) as (i' & Hi' & E). destruct (HT i Hi) as [_ V].
  rewrite (short_axes gs coords s (length gs) (xs i) 0 n i' SC); [reflexivity|lia|exact Hn|lia|exact Hi'| |cbn [Nat.add]; tauto].
  cbn [Nat.add]. rewrite <- (V n Hn). apply (W _ SC). intros [|k] Hk; [reflexivity|]. cbn [cons_ix nth] in *. apply E. destruct (Nat.lt_ge_cases k (length s)) as [q|q]; [exact q|]. exfalso. apply Hk, nth_overflow, q.
Qed.
(** ** one grid point, coordinates above it *)
Lemma grid_one : forall g values V coords s xs, grid_data [[g]] values V -> test_points 1 s coords xs -> (forall i, inside s i -> g < nth 0 (xs i) 0) ->
  exists Y, regular_grid_interp [[Fin g]] values coords None = Ok Y /\ ash Y = Ok s /\ forall i, inside s i -> aget Y i = NaN.
Proof.
  intros g values V coords s xs [SV HV] [SC HT] HX. unfold regular_grid_interp. cbv zeta. rewrite SC, SV. cbn [rmap rbind tl grid_axes map rev app length].
  unfold last_axis. rewrite SC. cbn [Nat.ltb Nat.leb rbind]. unfold grid_axis. cbv zeta. cbn [length].
  match goal with |- context[amap (fun x0 : fl => (searchsorted [Fin g] x0 - 1)%Z) ?q] => set (x := q) end. set (I := amap (zclip 0 (Z.of_nat 1 - 2)) (amap (fun x => (searchsorted [Fin g] x - 1)%Z) x)).
  assert (SI : ash I = Ok s) by reflexivity.
  assert (EX : forall i, inside s i -> aget x i = Fin (nth 0 (xs i) 0)). { intros i Hi. cbn [x aget]. apply (proj2 (HT i Hi)). lia. }
  assert (EI : forall i, inside s i -> aget I i = (-1)%Z).
  { intros i Hi. cbn [I amap aget]. rewrite (EX i Hi). change [Fin g] with (map Fin [g]). rewrite search_cnt. unfold cnt. cbn. unfold Rltb. destruct (Rlt_dec g (nth 0 (xs i) 0)) as [q|q]; [reflexivity|]. exfalso. apply q, HX, Hi. }
  destruct (amap_res_ok (take [Fin g]) NaN I s SI) as (g0 & -> & S0 & V0). { intros i Hi. rewrite (EI i Hi). eexists. reflexivity. }
  cbn [rbind].
  destruct (amap_res_ok (take [Fin g]) NaN (amap (Z.add 1) I) s SI) as (g1 & -> & S1 & V1). { intros i Hi. cbn [amap aget]. rewrite (EI i Hi). eexists. reflexivity. }
  cbn [rbind]. match goal with |- context[@ndiv ?a ?b ?c ?p ?q] => set (y := @ndiv a b c p q) end.
  assert (Sy : ash y = Ok s). { cbn [y ndiv nsub NumT amap2 ash]. rewrite S0, S1. cbn [x ash bcr]. rewrite bc_refl. cbn [bcr]. rewrite bc_refl. reflexivity. }
  assert (Ey : forall i, inside s i -> aget y i = Inf true).
  { intros i Hi. cbn [y ndiv nsub NumT amap2 aget]. rewrite (EX i Hi), (V0 i (Fin g)), (V1 i (Fin g)) by (cbn [amap aget]; rewrite (EI i Hi); reflexivity).
    cbn. assert (Q := HX i Hi). unfold Reqb. destruct (Req_EM_T (g + - g) 0) as [_|q]; [|exfalso; apply q; ring]. destruct (Req_EM_T (nth 0 (xs i) 0 + - g) 0) as [q|_]; [lra|].
    unfold rpos, Rltb. destruct (Rlt_dec 0 (nth 0 (xs i) 0 + - g)); [reflexivity|lra]. }
  clearbody y I.
  cbn [map fst snd product flat_map app fold_res].
  assert (Ga : forall e : arr Z, (forall i, inside s i -> aget e i = (-1)%Z \/ aget e i = 0%Z) -> exists w, gather s values [e] = Ok w /\ ash w = Ok s /\ forall i, inside s i -> aget w i = Fin (V [0%nat])).
  { intros e He. unfold gather. rewrite SV. cbn [map rev app length rbind Nat.ltb Nat.leb Nat.sub skipn combine firstn].
    replace (forallb _ (all_ix s)) with true.
    - eexists. split; [reflexivity|]. split; [reflexivity|]. intros i Hi. cbn [aget]. rewrite <- (HV [0%nat]) by (repeat constructor). f_equal. extensionality ax. cbn [Nat.ltb Nat.leb rev app].
      rewrite Nat.sub_0_r. f_equal. cbn [map fst snd]. replace (fun ax0 => i (ax0 + 0)%nat) with i by (extensionality q; rewrite Nat.add_0_r; reflexivity).
      destruct (He i Hi) as [-> | ->]; reflexivity.
    - symmetry. apply forallb_forall. intros i Hi. cbn [forallb fst snd]. destruct (He i (all_ix_inside _ _ Hi)) as [-> | ->]; reflexivity. }
  destruct (Ga I) as (w0 & -> & T0 & W0); [intros i Hi; left; apply EI, Hi|].
  destruct (Ga (amap (Z.add 1) I)) as (w1 & -> & T1 & W1); [intros i Hi; right; cbn [amap aget]; rewrite (EI i Hi); reflexivity|].
  cbn [rbind]. set (Y := (_ + _)%num : tens).
  assert (SY : ash Y = Ok s).
  { unfold Y, edge_weight. cbn [combine fold_left nadd nmul nsub nsw NumT amap2 amap3 amap ash alit nlit]. rewrite T0, T1, Sy, SI. cbn [bcr bc firstn Nat.sub app].
    repeat (rewrite ?bc_refl; cbn [bcr bc]). reflexivity. }
  rewrite SY. cbn [rmap rbind]. exists Y. split; [reflexivity|]. split; [exact SY|]. intros i Hi. unfold Y, edge_weight.
  cbn [combine fold_left nadd nmul nsub nsw NumT amap2 amap3 amap aget alit nlit]. rewrite (W0 i Hi), (W1 i Hi), (Ey i Hi), (EI i Hi). cbn.
  set (v := V [0%nat]). unfold Reqb. destruct (Req_EM_T 1 0) as [q|_]; [lra|]. replace (rpos 1) with true by (symmetry; unfold rpos, Rltb; destruct (Rlt_dec 0 1); [reflexivity|lra]).
  destruct (Req_EM_T v 0); cbn; [reflexivity|]. destruct (rpos v); reflexivity.
Qed.
Lemma short_example : test_points (length [[0; 1]; [2]]) [3%nat] (mkA (Ok [2; 3]%nat) (fun i => Fin (match i O with O => INR (i 1%nat) | _ => 1 + INR (i 1%nat) end))) (fun i => [INR (i O); 1 + INR (i O)]) /\
  twf (mkA (Ok [2; 3]%nat) (fun i => Fin (match i O with O => INR (i 1%nat) | _ => 1 + INR (i 1%nat) end))) /\ inside [3%nat] (at_time 1) /\ 1 + INR 1 <= 2 /\
  grid_data [[2]] (mkA (Ok [1%nat]) (fun _ => Fin 5)) (fun _ => 5) /\ test_points 1 [3%nat] (mkA (Ok [1; 3]%nat) (fun i => Fin (3 + INR (i 1%nat)))) (fun i => [3 + INR (i O)]) /\
  forall i, inside [3%nat] i -> 2 < nth 0 [3 + INR (i O)] 0.
Proof.
  split; [|split; [|split; [|split; [|split; [|split]]]]].
  - split; [reflexivity|]. intros i _. split; [reflexivity|]. intros [|[|n]] Hn; [reflexivity|reflexivity|cbn in Hn; lia].
  - intros s E i j H. injection E as <-. cbn [aget]. rewrite (H O), (H 1%nat) by (cbn; lia). reflexivity.
  - intros [|k] Hk; cbn in *; lia.
  - cbn. lra.
  - split; [reflexivity|]. intros js _. reflexivity.
  - split; [reflexivity|]. intros i _. split; [reflexivity|]. intros [|n] Hn; [reflexivity|cbn in Hn; lia].
  - intros i _. cbn [nth]. assert (Q := pos_INR (i O)). lra.
Qed.
