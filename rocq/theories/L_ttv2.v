(** * TTVOrbit: bins, nearest transit, expected times, filling in *)
From Coq Require Import Reals List Bool Arith ZArith Lra Lia Psatz Sorted.
From Verif Require Import Num CoreOps Inst M_units M_kepler M_kwargs M_fin M_tensor M_ttv Spec_orbit Spec_params Spec_array Spec_ttv L_real L_fl L_params3 L_ttv1.
Import ListNotations.
Open Scope R_scope.

(** ** Binary search *)
Lemma bsearch_ok (e : nat -> fl) v : forall fuel lo hi, (lo <= hi)%nat -> (hi - lo <= fuel)%nat ->
  (forall i j, (i <= j < hi)%nat -> flt_sort (e j) v = true -> flt_sort (e i) v = true) ->
  let r := bsearch fuel e v lo hi in
  (lo <= r <= hi)%nat /\ (forall i, (lo <= i < r)%nat -> flt_sort (e i) v = true) /\ (forall i, (r <= i < hi)%nat -> flt_sort (e i) v = false).
Proof.
  induction fuel as [|fuel IH]; intros lo hi Hle Hf Hm; cbn [bsearch].
  - assert (lo = hi) by lia. subst hi. split; [lia|]. split; intros; lia.
  - destruct (Nat.ltb_spec lo hi) as [Hlt|Hge]; [|split; [lia|split; intros; lia]].
    assert (Hmid : (lo <= lo + (hi - lo) / 2 < hi)%nat).
    { assert ((hi - lo) / 2 < hi - lo)%nat by (apply Nat.div_lt; lia). lia. }
    set (mid := (lo + (hi - lo) / 2)%nat) in *. clearbody mid.
    destruct (flt_sort (e mid) v) eqn:E.
    + destruct (IH (S mid) hi) as (A & B & C); [lia|lia|exact Hm|]. split; [lia|]. split; [|exact C].
      intros i Hi. destruct (le_lt_dec (S mid) i); [apply B; lia|]. apply (Hm i mid); [lia|exact E].
    + destruct (IH lo mid) as (A & B & C); [lia|lia|intros i j Hij; apply Hm; lia|]. split; [lia|]. split; [exact B|].
      intros i Hi. destruct (le_lt_dec mid i); [|apply C; lia]. destruct (flt_sort (e i) v) eqn:Ei; [|reflexivity].
      rewrite (Hm mid i) in E; [discriminate E|lia|exact Ei].
Qed.

Lemma search_real (es : list R) (t : R) : (forall i j, (i <= j < length es)%nat -> nth i es 0 <= nth j es 0) ->
  let r := searchsorted (map Fin es) (Fin t) in
  (r <= length es)%nat /\ (forall i, (i < r)%nat -> nth i es 0 < t) /\ (forall i, (r <= i < length es)%nat -> t <= nth i es 0).
Proof.
  intro Hs. unfold searchsorted. rewrite map_length.
  assert (N : forall i, (i < length es)%nat -> nth i (map Fin es) NaN = Fin (nth i es 0)).
  { intros i Hi. rewrite (nth_indep _ NaN (Fin 0)) by (rewrite map_length; exact Hi). apply map_nth. }
  destruct (bsearch_ok (fun i => nth i (map Fin es) NaN) (Fin t) (length es) 0 (length es)) as (A & B & C); [lia|lia| |].
  - intros i j Hij. cbn beta. rewrite !N by lia. cbn. intro H. assert (Q := Hs i j Hij). unfold Rltb in *.
    destruct (Rlt_dec (nth j es 0) t); [|discriminate H]. destruct (Rlt_dec (nth i es 0) t); [reflexivity|lra].
  - cbv zeta. set (r := bsearch _ _ _ _ _) in *. clearbody r. split; [lia|]. split.
    + intros i Hi. specialize (B i ltac:(lia)). cbn beta in B. rewrite N in B by lia. cbn in B. unfold Rltb in B.
      destruct (Rlt_dec (nth i es 0) t); [assumption|discriminate B].
    + intros i Hi. specialize (C i ltac:(lia)). cbn beta in C. rewrite N in C by lia. cbn in C. unfold Rltb in C.
      destruct (Rlt_dec (nth i es 0) t); [discriminate C|lra].
Qed.

(** ** Bins *)
Lemma mids_fin l : mids (map Fin l) = map Fin (mids l).
Proof. induction l as [|a l IH]; [reflexivity|]. destruct l as [|b l]; [reflexivity|]. change (mids (map Fin (a :: b :: l))) with ((nlit 0.5 * (Fin b + Fin a))%num :: mids (map Fin (b :: l))). rewrite IH. reflexivity. Qed.
Lemma mids_len (l : list R) : length (mids l) = (length l - 1)%nat.
Proof. induction l as [|a l IH]; [reflexivity|]. destruct l as [|b l]; [reflexivity|]. change (mids (a :: b :: l)) with ((nlit 0.5 * (b + a))%num :: mids (b :: l)). cbn [length] in *. rewrite IH. lia. Qed.
Lemma mids_nth (l : list R) i : (S i < length l)%nat -> nth i (mids l) 0 = (nth i l 0 + nth (S i) l 0) / 2.
Proof.
  revert i. induction l as [|a l IH]; intros i Hi; [cbn in Hi; lia|]. destruct l as [|b l]; [cbn in Hi; lia|].
  change (mids (a :: b :: l)) with ((0.5 * (b + a))%R :: mids (b :: l)).
  destruct i as [|i]; cbn [nth]; [lra|]. rewrite IH by (cbn in *; lia). reflexivity.
Qed.
Lemma ssorted_nth (l : list R) : StronglySorted Rlt l -> forall i j, (i < j < length l)%nat -> nth i l 0 < nth j l 0.
Proof.
  induction 1 as [|a l Hs IH Hf]; intros i j Hij; [cbn in Hij; lia|]. destruct j as [|j]; [lia|]. destruct i as [|i]; cbn [nth].
  - rewrite Forall_forall in Hf. apply Hf. apply nth_In. cbn in Hij. lia.
  - apply IH. cbn in Hij. lia.
Qed.
Lemma last_fin (l : list R) a : last (map Fin l) (Fin a) = Fin (last l a).
Proof. induction l as [|x l IH]; [reflexivity|]. destruct l; [reflexivity|]. exact IH. Qed.
Lemma last_nth (l : list R) a : l <> [] -> last l a = nth (length l - 1) l 0.
Proof.
  induction l as [|x l IH]; intro H; [congruence|]. destruct l as [|y l]; [reflexivity|].
  change (last (x :: y :: l) a) with (last (y :: l) a). rewrite IH by discriminate. cbn [length]. 
  replace (S (S (length l)) - 1)%nat with (S (S (length l) - 1))%nat by lia. reflexivity.
Qed.

Section B.
Variables (P : R) (l : list R).
Hypothesis HP : 0 < P.
Hypothesis Hl : l <> [].
Hypothesis Hs : StronglySorted Rlt l.
Let m := length l.
Let a := nth 0 l 0.
Let z := nth (m - 1) l 0.
Definition edges_r := (a - 0.5 * P) :: mids l ++ [z + 0.5 * P].
Definition values_r := a :: l ++ [z].
Lemma m_pos : (0 < m)%nat. Proof. unfold m. destruct l; [congruence|cbn; lia]. Qed.
Lemma bins_fin : ttv_bins (Fin P) (map Fin l) = Ok (map Fin edges_r, map Fin values_r).
Proof.
  unfold ttv_bins, edges_r, values_r, z, a, m. rewrite <- (last_nth l 0 Hl).
  assert (E : map Fin l <> []) by (destruct l; [congruence|discriminate]).
  destruct l as [|x l']; [congruence|]. cbn [map] in *. change (Fin x :: map Fin l') with (map Fin (x :: l')).
  rewrite last_fin, mids_fin. cbn [nth map]. rewrite !map_app. cbn [map]. 
  replace (last (x :: l') 0) with (last (x :: l') x) by (rewrite !last_nth by discriminate; reflexivity). reflexivity.
Qed.
Lemma edges_len : length edges_r = S m.
Proof. unfold edges_r. cbn [length]. rewrite app_length, mids_len. cbn. fold m. assert (M := m_pos). lia. Qed.
Lemma edges_nth i : (i <= m)%nat -> nth i edges_r 0 =
  if Nat.eqb i 0 then a - P / 2 else if Nat.eqb i m then z + P / 2 else (nth (i - 1) l 0 + nth i l 0) / 2.
Proof.
  assert (M := m_pos). intro Hi. destruct i as [|i]; [cbn; lra|]. change (Nat.eqb (S i) 0) with false. cbv iota. unfold edges_r. cbn [nth].
  replace (S i - 1)%nat with i by lia. destruct (Nat.eqb_spec (S i) m) as [E|E].
  - rewrite app_nth2; rewrite mids_len; fold m; [|lia]. replace (i - (m - 1))%nat with 0%nat by lia. cbn. lra.
  - rewrite app_nth1 by (rewrite mids_len; fold m; lia). apply mids_nth. fold m. lia.
Qed.
Lemma values_nth i : (i <= S m)%nat -> nth i values_r 0 = nth (Nat.min (i - 1) (m - 1)) l 0.
Proof.
  assert (M := m_pos). intro Hi. unfold values_r. destruct i as [|i]; [reflexivity|]. cbn [nth].
  replace (S i - 1)%nat with i by lia. destruct (Nat.eq_dec i m) as [E|E].
  - rewrite app_nth2; fold m; [|lia]. replace (i - m)%nat with 0%nat by lia. cbn. unfold z. f_equal. lia.
  - rewrite app_nth1 by (fold m; lia). f_equal. lia.
Qed.
Lemma l_mono i j : (i <= j < m)%nat -> nth i l 0 <= nth j l 0.
Proof. intro H. destruct (Nat.eq_dec i j) as [->|]; [lra|]. apply Rlt_le, ssorted_nth; [exact Hs|fold m; lia]. Qed.
Lemma edges_mono i j : (i <= j < length edges_r)%nat -> nth i edges_r 0 <= nth j edges_r 0.
Proof.
  rewrite edges_len. intro H. assert (M := m_pos). rewrite !edges_nth by lia.
  destruct (Nat.eqb_spec i 0) as [Ei|Ei]; destruct (Nat.eqb_spec j 0) as [Ej|Ej]; try lra; try lia.
  - destruct (Nat.eqb_spec j m) as [E|E].
    + assert (a <= z) by (apply l_mono; lia). lra.
    + assert (a <= nth (j - 1) l 0) by (apply l_mono; lia). assert (a <= nth j l 0) by (apply l_mono; lia). lra.
  - destruct (Nat.eqb_spec i m) as [E|E]; destruct (Nat.eqb_spec j m) as [E'|E']; try lra; try lia.
    + assert (nth (i - 1) l 0 <= z) by (apply l_mono; lia). assert (nth i l 0 <= z) by (apply l_mono; lia). lra.
    + assert (nth (i - 1) l 0 <= nth (j - 1) l 0) by (apply l_mono; lia). assert (nth i l 0 <= nth j l 0) by (apply l_mono; lia). lra.
Qed.
Lemma bin_nearest t : exists v, nth (searchsorted (map Fin edges_r) (Fin t)) (map Fin values_r) NaN = Fin v /\ nearest l t v.
Proof.
  assert (M := m_pos). destruct (search_real edges_r t edges_mono) as (A & B & C).
  set (r := searchsorted _ _) in *. clearbody r. rewrite edges_len in *.
  exists (nth r values_r 0). split.
  { rewrite (nth_indep _ NaN (Fin 0)); [apply map_nth|]. rewrite map_length. unfold values_r. cbn [length]. rewrite app_length. cbn. fold m. lia. }
  rewrite values_nth by lia. set (q := Nat.min (r - 1) (m - 1)). assert (Hq : (q < m)%nat) by (unfold q; lia).
  split; [apply nth_In; exact Hq|]. intros u Hu. apply (In_nth l u 0) in Hu. destruct Hu as (s & Hlt & <-). fold m in Hlt.
  set (v := nth q l 0). destruct (lt_eq_lt_dec s q) as [[H|H]|H].
  - (* an earlier transit: t lies above the edge between *)
    assert (E1 : nth s l 0 < v) by (apply ssorted_nth; [exact Hs|fold m; lia]).
    assert (E2 : nth (q - 1) l 0 >= nth s l 0) by (apply Rle_ge, l_mono; lia).
    assert (E3 : nth q edges_r 0 < t) by (apply B; unfold q; lia).
    rewrite edges_nth in E3 by lia. destruct (Nat.eqb_spec q 0); [lia|]. destruct (Nat.eqb_spec q m); [lia|]. fold v in E3.
    assert (2 * t > nth s l 0 + v) by lra.
    unfold Rabs. destruct (Rcase_abs (t - v)), (Rcase_abs (t - nth s l 0)); split; intros; lra.
  - subst s. fold v. split; [lra|intros; lra].
  - assert (E1 : v < nth s l 0) by (apply ssorted_nth; [exact Hs|fold m; lia]).
    assert (E2 : nth (S q) l 0 <= nth s l 0) by (apply l_mono; lia).
    assert (E3 : t <= nth (S q) edges_r 0).
    { destruct (Nat.eq_dec r 0) as [E|E].
      - assert (t <= nth 0 edges_r 0) by (apply C; lia). apply Rle_trans with (1 := H0). apply edges_mono. rewrite edges_len. lia.
      - replace (S q) with r by (unfold q in *; lia). apply C. unfold q in *. lia. }
    rewrite edges_nth in E3 by lia. change (Nat.eqb (S q) 0) with false in E3. cbv iota in E3. destruct (Nat.eqb_spec (S q) m); [lia|].
    replace (S q - 1)%nat with q in E3 by lia. fold v in E3.
    unfold Rabs. destruct (Rcase_abs (t - v)), (Rcase_abs (t - nth s l 0)); split; intros; lra.
Qed.
End B.
Lemma nearest_unique l t v v' : nearest l t v -> nearest l t v' -> v = v'.
Proof.
  intros [I1 N1] [I2 N2]. destruct (N1 _ I2) as [A1 A2]. destruct (N2 _ I1) as [B1 B2].
  assert (E : Rabs (t - v) = Rabs (t - v')) by lra. apply Rle_antisym; [apply A2; exact E|apply B2; symmetry; exact E].
Qed.
Lemma nearest_self l t : In t l -> nearest l t t.
Proof.
  intro H. split; [exact H|]. intros u _. replace (t - t) with 0 by ring. rewrite Rabs_R0. split; [apply Rabs_pos|].
  intro E. unfold Rabs in E. destruct (Rcase_abs (t - u)); lra.
Qed.

(** ** Expected transit times *)
Lemma Zfloor_spec x : IZR (Zfloor x) <= x < IZR (Zfloor x) + 1.
Proof. unfold Zfloor. destruct (base_Int_part x). lra. Qed.
Lemma Zceil_spec x : x <= IZR (Zceil x) < x + 1.
Proof. unfold Zceil. rewrite opp_IZR. assert (H := Zfloor_spec (- x)). lra. Qed.

Lemma expected_in mn mx P t0 t : 0 < P -> In t (expected_times mn mx P t0) <-> exists q : Z, t = t0 + IZR q * P /\ mn <= t < mx.
Proof.
  intro HP. unfold expected_times. cbv zeta. rewrite filter_In, in_map_iff.
  assert (F := Zfloor_spec ((mn - t0) / P)). assert (C := Zceil_spec ((mx - t0) / P)).
  set (f := Zfloor _) in *. set (c := Zceil _) in *.
  assert (Dm : (mn - t0) / P * P = mn - t0) by (field; lra). assert (Dx : (mx - t0) / P * P = mx - t0) by (field; lra).
  set (y := (mn - t0) / P) in *. set (w := (mx - t0) / P) in *. split.
  - intros [(i & Ei & Hi) Hb]. apply in_seq in Hi. apply andb_prop in Hb. destruct Hb as [H1 H2].
    unfold Rleb in *. destruct (Rle_dec mn t); [|discriminate H1]. destruct (Rle_dec t mx); [|discriminate H2].
    exists (f + Z.of_nat i)%Z. split; [lra|]. split; [assumption|].
    assert (Hz : (f + Z.of_nat i <= c - 1)%Z) by lia. apply IZR_le in Hz. rewrite (minus_IZR c 1) in Hz.
    assert (IZR (f + Z.of_nat i) < w) by lra. nra.
  - intros (q & -> & Hr). assert (Hq1 : y <= IZR q) by nra. assert (Hq2 : IZR q < w) by nra.
    assert (f <= q)%Z. { apply le_IZR. lra. } assert (q < c)%Z. { apply lt_IZR. lra. }
    split.
    + exists (Z.to_nat (q - f)). split; [|apply in_seq; lia]. rewrite Z2Nat.id by lia. replace (f + (q - f))%Z with q by lia. ring.
    + rewrite !Rleb_true by lra. reflexivity.
Qed.
Lemma filter_ssorted {A} (Rel : A -> A -> Prop) f l : StronglySorted Rel l -> StronglySorted Rel (filter f l).
Proof.
  induction 1 as [|a l Hs IH Hf]; [constructor|]. cbn. destruct (f a); [|exact IH]. constructor; [exact IH|].
  rewrite Forall_forall in *. intros x Hx. apply filter_In in Hx. apply Hf. tauto.
Qed.
Lemma map_seq_ssorted (g : nat -> R) n : (forall i j, (i < j)%nat -> g i < g j) -> forall s, StronglySorted Rlt (map g (seq s n)).
Proof.
  intro H. induction n as [|n IH]; intro s; [constructor|]. cbn. constructor; [apply IH|]. rewrite Forall_forall. intros x Hx.
  apply in_map_iff in Hx. destruct Hx as (i & <- & Hi). apply in_seq in Hi. apply H. lia.
Qed.
Lemma expected_sorted mn mx P t0 : 0 < P -> StronglySorted Rlt (expected_times mn mx P t0).
Proof.
  intro HP. unfold expected_times. cbv zeta. apply filter_ssorted, map_seq_ssorted. intros i j Hij.
  assert (IZR (Zfloor ((mn - t0) / P) + Z.of_nat i) < IZR (Zfloor ((mn - t0) / P) + Z.of_nat j)) by (apply IZR_lt; lia). nra.
Qed.

Lemma expected_all mn mx ps ts : let l := compute_expected_transit_times mn mx ps ts in
  length l = Nat.min (length ps) (length ts) /\
  forall j P t0, nth_error ps j = Some P -> nth_error ts j = Some t0 -> 0 < P -> exists lj, nth_error l j = Some lj /\
    StronglySorted Rlt lj /\ forall t, In t lj <-> exists q : Z, t = t0 + IZR q * P /\ mn <= t < mx.
Proof.
  cbv zeta. unfold compute_expected_transit_times. split; [rewrite map_length; apply combine_length|].
  intros j P t0 H1 H2 HP. exists (expected_times mn mx P t0). split.
  - rewrite nth_error_map. assert (E : nth_error (combine ps ts) j = Some (P, t0)).
    { revert j ts H1 H2. induction ps as [|p ps IH]; intros [|j] [|t ts] H1 H2; try discriminate; cbn in *; [congruence|]. apply IH; assumption. }
    rewrite E. reflexivity.
  - split; [apply expected_sorted; exact HP|]. intro t. apply expected_in, HP.
Qed.

(** ** Filling in *)
Section Fl.
Context {A : Type}.
Lemma set_nth_len (l : list A) i v : length (set_nth l i v) = length l.
Proof. revert i. induction l as [|x l IH]; intros [|i]; cbn; try reflexivity. rewrite IH. reflexivity. Qed.
Lemma set_nth_same (l : list A) i v : (i < length l)%nat -> nth_error (set_nth l i v) i = Some v.
Proof. revert i. induction l as [|x l IH]; intros [|i] H; cbn in *; try lia; [reflexivity|]. apply IH. lia. Qed.
Lemma set_nth_other (l : list A) i j v : i <> j -> nth_error (set_nth l i v) j = nth_error l j.
Proof. revert i j. induction l as [|x l IH]; intros [|i] [|j] H; cbn; try reflexivity; try congruence. apply IH. congruence. Qed.
Lemma pyix_nonneg n z : (0 <= z < Z.of_nat n)%Z -> pyix n z = Ok (Z.to_nat z).
Proof. intro H. unfold pyix. destruct (Z.leb_spec 0 z); [|lia]. destruct (Z.ltb_spec z (Z.of_nat n)); [reflexivity|lia]. Qed.
Lemma set_all_ok (ps : list (Z * A)) : forall l, (forall p, In p ps -> (0 <= fst p < Z.of_nat (length l))%Z) -> NoDup (map fst ps) ->
  exists r, set_all l ps = Ok r /\ length r = length l /\
    (forall z v, In (z, v) ps -> nth_error r (Z.to_nat z) = Some v) /\
    (forall i, ~ In (Z.of_nat i) (map fst ps) -> nth_error r i = nth_error l i).
Proof.
  induction ps as [|[z v] ps IH]; intros l Hr Hd.
  - exists l. split; [reflexivity|]. split; [reflexivity|]. split; [intros ? ? []|reflexivity].
  - cbn in Hd. inversion Hd as [|? ? Hn Hd']; subst. assert (Hz := Hr (z, v) (or_introl eq_refl)). cbn in Hz.
    cbn [set_all]. rewrite pyix_nonneg by exact Hz. cbn [rbind].
    destruct (IH (set_nth l (Z.to_nat z) v)) as (r & E & L & I1 & I2); [intros p Hp; rewrite set_nth_len; apply Hr; right; exact Hp|exact Hd'|].
    rewrite set_nth_len in L. exists r. split; [exact E|]. split; [exact L|]. split.
    + intros z' v' [Heq|Hin]; [|apply I1; exact Hin]. injection Heq as -> ->. rewrite I2 by (rewrite Z2Nat.id by lia; exact Hn).
      apply set_nth_same. lia.
    + intros i Hi. cbn in Hi. rewrite I2 by tauto. apply set_nth_other. intro E'. apply Hi. left. rewrite <- E'. rewrite Z2Nat.id by lia. reflexivity.
Qed.
End Fl.
Lemma zmax_ok l m : zmax l = Ok m -> In m l /\ forall z, In z l -> (z <= m)%Z.
Proof.
  destruct l as [|x l]; [discriminate|]. cbn. intro H. apply Ok_inj in H. subst m. revert x. induction l as [|y l IH]; intro x.
  - cbn. split; [left; reflexivity|intros z [->|[]]; lia].
  - cbn [fold_left]. destruct (IH (Z.max x y)) as [A B]. split.
    + destruct A as [A|A].
      * rewrite <- A. destruct (Z.max_dec x y) as [E|E]; rewrite E; [left|right; left]; reflexivity.
      * right. right. exact A.
    + intros z [->|[->|Hz]].
      * assert (Q := B (Z.max z y) (or_introl eq_refl)). lia.
      * assert (Q := B (Z.max x z) (or_introl eq_refl)). lia.
      * apply B. right. exact Hz.
Qed.
Lemma zmax_some l : l <> [] -> exists m, zmax l = Ok m.
Proof. destruct l; [congruence|]. intros _. eexists. reflexivity. Qed.
Lemma in_combine_nth {A C} (a : list A) (b : list C) i x y : nth_error a i = Some x -> nth_error b i = Some y -> In (x, y) (combine a b).
Proof. revert a b. induction i as [|i IH]; intros [|x' a] [|y' b] H1 H2; try discriminate; cbn in *; [left; congruence|right; apply IH; assumption]. Qed.
Lemma combine_fst {A C} (a : list A) (b : list C) : length a = length b -> map fst (combine a b) = a.
Proof. revert b. induction a as [|x a IH]; intros [|y b] H; try discriminate; [reflexivity|]. cbn. f_equal. apply IH. cbn in H. lia. Qed.

Lemma set_sub_len {A} (e : list A) inds vals : length inds = length vals -> set_subtensor e inds vals = set_all e (combine inds vals).
Proof.
  intro H. unfold set_subtensor. destruct vals as [|v [|w vals]].
  - destruct inds; [reflexivity|discriminate H].
  - destruct inds as [|z [|]]; try discriminate H. reflexivity.
  - rewrite H, Nat.eqb_refl. reflexivity.
Qed.
Section A.
Context {T B : Type} {N : Num T B}.
Lemma all_fill (t0 p : T) inds times : inds <> [] -> length inds = length times -> NoDup inds -> (forall z, In z inds -> (0 <= z)%Z) ->
  exists m r, In m inds /\ (forall z, In z inds -> (z <= m)%Z) /\ ttv_all t0 p inds times = Ok r /\
    length r = S (Z.to_nat m) /\
    (forall i z v, nth_error inds i = Some z -> nth_error times i = Some v -> nth_error r (Z.to_nat z) = Some v) /\
    (forall z, (0 <= z <= m)%Z -> ~ In z inds -> nth_error r (Z.to_nat z) = Some (nadd t0 (nmul p (nlit (IZR z))))).
Proof.
  intros Hne HL Hd Hp. destruct (zmax_some inds Hne) as [m Hm]. destruct (zmax_ok inds m Hm) as [Im Hmax].
  assert (Pm := Hp m Im). unfold ttv_all. rewrite Hm. cbn [rbind]. rewrite set_sub_len by exact HL.
  set (e := map (fun z => nadd t0 (nmul p (nlit (IZR z)))) (zarange (m + 1))).
  assert (Le : length e = S (Z.to_nat m)) by (unfold e, zarange; rewrite !map_length, seq_length; lia).
  destruct (set_all_ok (combine inds times) e) as (r & E & L & I1 & I2).
  - intros [z v] Hin. apply in_combine_l in Hin. cbn. rewrite Le. specialize (Hp z Hin). specialize (Hmax z Hin). lia.
  - rewrite combine_fst by exact HL. exact Hd.
  - exists m, r. split; [exact Im|]. split; [exact Hmax|]. split; [exact E|]. split; [lia|]. split.
    + intros i z v H1 H2. apply I1. eapply in_combine_nth; eassumption.
    + intros z Hz Hn. rewrite I2; [|rewrite combine_fst by exact HL; rewrite Z2Nat.id by lia; exact Hn].
      unfold e, zarange. rewrite map_map, nth_error_map. 
      assert (E' : nth_error (seq 0 (Z.to_nat (m + 1))) (Z.to_nat z) = Some (Z.to_nat z)).
      { rewrite (nth_error_nth' _ 0%nat) by (rewrite seq_length; lia). rewrite seq_nth by lia. reflexivity. }
      rewrite E'. cbn. rewrite Z2Nat.id by lia. reflexivity.
Qed.
End A.
