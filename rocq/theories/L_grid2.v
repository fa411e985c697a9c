(** * Grid interpolation: any number of dimensions *)
From Coq Require Import Reals List Bool Arith ZArith Lra Lia FunctionalExtensionality.
From Verif Require Import Num CoreOps Inst CoreFlux M_units M_kepler M_tensor M_simple M_ttv M_limbdark M_interpolated M_grid
  Spec_array Spec_light Spec_grid L_fl L_real L_shapeS L_grid1.
Import ListNotations.
Open Scope R_scope.

Notation axis := (arr Z * arr bool * tens)%type.
Definition ax_i (a : axis) : arr Z := fst (fst a).
Definition ax_o (a : axis) : arr bool := snd (fst a).
Definition ax_y (a : axis) : tens := snd a.
Definition ax_shape (s : shape) (a : axis) : Prop := ash (ax_i a) = Ok s /\ ash (ax_o a) = Ok s /\ ash (ax_y a) = Ok s.
(** the axes evaluated at index i for coordinates xs *)
Inductive axes_at (i : idx) : list (list R) -> list R -> list axis -> Prop :=
| aa_nil : axes_at i [] [] []
| aa_cons g gs x xs a axs : aget (ax_i a) i = Z.of_nat (cellof g x) -> aget (ax_y a) i = Fin (frac g x) ->
    aget (ax_o a) i = (Rleb x (nth 0 g 0) || Rltb (last g 0) x) -> axes_at i gs xs axs -> axes_at i (g :: gs) (x :: xs) (a :: axs).

Lemma grid_axes_ok d s coords gs : ash coords = Ok (d :: s) -> List.Forall grid_ok gs -> forall n, (n + length gs <= d)%nat ->
  (forall i k, inside s i -> (k < d)%nat -> exists v, aget coords (cons_ix k i) = Fin v) ->
  exists axs, grid_axes n (map (map Fin) gs) coords = Ok axs /\ length axs = length gs /\ List.Forall (ax_shape s) axs /\
    forall i xs, length xs = length gs -> (forall k, (k < length gs)%nat -> aget coords (cons_ix (n + k) i) = Fin (nth k xs 0)) -> axes_at i gs xs axs.
Proof.
  intros HS HG. induction HG as [|g gs Hg HG IH]; intros n Hn HV.
  - exists []. split; [reflexivity|]. split; [reflexivity|]. split; [constructor|]. intros i xs Hl _. destruct xs; [constructor|discriminate].
  - cbn [length] in Hn. cbn [map grid_axes]. unfold last_axis. rewrite HS.
    replace (Nat.ltb n d) with true by (symmetry; apply Nat.ltb_lt; lia). cbn [rbind].
    destruct (grid_axis_ok g (mkA (Ok s) (fun i => aget coords (cons_ix n i))) s Hg eq_refl) as (I & B & y & E & SI & SB & Sy & V).
    { intros i Hi. apply HV; [exact Hi|lia]. }
    rewrite E. cbn [rbind]. destruct (IH (S n)) as (axs & EA & LA & FA & VA); [lia|exact HV|].
    rewrite EA. cbn [rbind]. eexists. split; [reflexivity|]. split; [cbn [length]; rewrite LA; reflexivity|].
    split; [constructor; [repeat split; assumption|exact FA]|].
    intros i xs Hl HX. destruct xs as [|x xs]; [discriminate|]. cbn [length] in Hl, HX.
    destruct (V i x) as (V1 & V2 & V3). { assert (Q := HX O ltac:(lia)). rewrite Nat.add_0_r in Q. exact Q. }
    constructor; try assumption. apply VA; [lia|]. intros k Hk. assert (Q := HX (S k) ltac:(lia)). rewrite <- plus_n_Sm in Q. exact Q.
Qed.

(** ** weights *)
Definition fval (a : fl) : R := match a with Fin r => r | _ => 0 end.
Fixpoint wt (i : idx) (e : list (arr Z)) (axs : list axis) : R :=
  match e, axs with
  | e :: es, a :: axs => (if Z.eqb (aget e i) (aget (ax_i a) i) then 1 - fval (aget (ax_y a) i) else fval (aget (ax_y a) i)) * wt i es axs
  | _, _ => 1
  end.
Definition edge_of (a : axis) (e : arr Z) : Prop := e = ax_i a \/ e = amap (Z.add 1) (ax_i a).
Lemma weight_at s e axs : Forall2 edge_of axs e -> List.Forall (ax_shape s) axs ->
  ash (edge_weight s e axs) = Ok s /\
  forall i gs xs, axes_at i gs xs axs -> aget (edge_weight s e axs) i = Fin (wt i e axs).
Proof.
  intros HE HF. unfold edge_weight.
  assert (G : forall w, ash w = Ok s ->
    ash (fold_left (fun (w : tens) (p : arr Z * axis) => let '(e, (i, _, y)) := p in (w * nsw (amap2 Z.eqb e i) (nlit 1 - y) y)%num) (combine e axs) w) = Ok s /\
    forall i gs xs r, axes_at i gs xs axs -> aget w i = Fin r ->
    aget (fold_left (fun (w : tens) (p : arr Z * axis) => let '(e, (i, _, y)) := p in (w * nsw (amap2 Z.eqb e i) (nlit 1 - y) y)%num) (combine e axs) w) i = Fin (r * wt i e axs)).
  { induction HE as [|a e0 axs e He HE IH]; intros w Hw.
    - split; [exact Hw|]. intros i gs xs r _ E. cbn [combine fold_left wt]. rewrite E. f_equal. ring.
    - inversion HF as [|? ? Ha HF']; subst. specialize (IH HF'). cbn [combine fold_left]. destruct a as [[I B] y]. destruct Ha as (A1 & A2 & A3). cbn [ax_i ax_o ax_y fst snd] in *.
      set (w' := (w * nsw (amap2 Z.eqb e0 I) (nlit 1 - y) y)%num).
      assert (SE : ash e0 = Ok s) by (destruct He as [->| ->]; exact A1).
      assert (Sw : ash w' = Ok s).
      { unfold w'. cbn [nmul nsub nlit nsw NumT amap2 amap3 ash alit]. rewrite Hw, SE, A1, A3. repeat first [rewrite bc_refl | progress cbn [bcr bc]]. reflexivity. }
      destruct (IH w' Sw) as [S1 V1]. split; [exact S1|].
      intros i gs xs r HA E. inversion HA as [|g gs' x xs' ? ? B1 B2 B3 B4]; subst.
      cbn [ax_i ax_o ax_y fst snd] in B1, B2, B3. cbn [wt]. cbn [ax_i ax_y fst snd].
      refine (eq_trans (V1 i gs' xs' (r * (if Z.eqb (aget e0 i) (aget I i) then 1 - fval (aget y i) else fval (aget y i))) B4 _) _).
      2: { f_equal. ring. }
      unfold w'. cbn [nmul nsub nlit nsw NumT amap2 amap3 aget alit]. rewrite E, B2.
      cbn [fval]. destruct (Z.eqb (aget e0 i) (aget I i)); unfold fsub; cbn [fadd fmul fneg]; do 2 f_equal; try ring. }
  destruct (G (mkA (Ok s) (fun _ => Fin 1)) eq_refl) as [G1 G2]. split; [exact G1|].
  intros i gs xs HA. rewrite (G2 i gs xs 1 HA eq_refl). f_equal. ring.
Qed.

(** ** reading the values *)
Lemma position_nat d (j : nat) : (j < d)%nat -> position d (Z.of_nat j) = Some j.
Proof.
  intro H. unfold position. cbv zeta.
  replace (Z.of_nat j <? 0)%Z with false by (symmetry; apply Z.ltb_ge; lia).
  replace (Z.of_nat j <? 0)%Z with false by (symmetry; apply Z.ltb_ge; lia).
  replace (Z.of_nat j <? Z.of_nat d)%Z with true by (symmetry; apply Z.ltb_lt; lia). rewrite Nat2Z.id. reflexivity.
Qed.
Lemma positions (q : idx) gs js edges : on_grid gs js -> Forall2 (fun (e : arr Z) j => aget e q = Z.of_nat j) edges js ->
  map (fun p => position (snd p) (aget (fst p) q)) (combine edges (map (@length R) gs)) = map Some js.
Proof.
  intro H. revert edges. induction H as [|g j gs js Hj H IH]; intros edges HE; inversion HE; subst; [reflexivity|].
  cbn [map combine fst snd]. rewrite IH by assumption. f_equal.
  match goal with E : aget _ _ = _ |- _ => rewrite E end. apply position_nat. exact Hj.
Qed.
Lemma forall2_len {A B} (P : A -> B -> Prop) l m : Forall2 P l m -> length l = length m.
Proof. induction 1; cbn; congruence. Qed.

Lemma gather_ok s (T : shape) gs values edges : ash values = Ok (T ++ rev (map (@length R) gs)) -> length edges = length gs ->
  (forall i, inside s i -> exists js, on_grid gs js /\ Forall2 (fun (e : arr Z) j => aget e i = Z.of_nat j) edges js) ->
  exists v, gather s values edges = Ok v /\ ash v = Ok (T ++ s) /\
    forall i js, on_grid gs js -> Forall2 (fun (e : arr Z) j => aget e (fun ax => i (ax + length T)%nat) = Z.of_nat j) edges js ->
      aget v i = aget values (fun ax => if Nat.ltb ax (length T) then i ax else nth (ax - length T) (rev js) O).
Proof.
  intros HS HL HP. unfold gather. rewrite HS. cbn [rbind]. cbv zeta.
  assert (L1 : length (T ++ rev (map (@length R) gs)) = (length T + length edges)%nat) by (rewrite app_length, rev_length, map_length; lia).
  rewrite L1. replace (Nat.ltb (length T + length edges) (length edges)) with false by (symmetry; apply Nat.ltb_ge; lia).
  replace (length T + length edges - length edges)%nat with (length T) by lia.
  rewrite firstn_app, Nat.sub_diag, firstn_all, app_nil_r, skipn_app, skipn_all, Nat.sub_diag. cbn [skipn app firstn]. rewrite rev_involutive.
  replace (forallb _ (all_ix s)) with true.
  - eexists. split; [reflexivity|]. split; [reflexivity|]. intros i js Hj HE. cbn [aget].
    f_equal. extensionality ax. destruct (Nat.ltb ax (length T)); [reflexivity|]. f_equal. f_equal.
    assert (Q := positions _ gs js edges Hj HE).
    apply (f_equal (map (fun o => match o with Some n => n | None => O end))) in Q. rewrite !map_map in Q. rewrite Q, map_id. reflexivity.
  - symmetry. apply forallb_forall. intros i Hi. apply forallb_forall. intros p Hp.
    destruct (HP i (all_ix_inside _ _ Hi)) as (js & Hj & HE).
    assert (Q := positions _ gs js edges Hj HE).
    assert (In (position (snd p) (aget (fst p) i)) (map Some js)).
    { rewrite <- Q. apply (in_map (fun p => position (snd p) (aget (fst p) i))). exact Hp. }
    apply in_map_iff in H. destruct H as (j & <- & _). reflexivity.
Qed.

(** ** the sum over the corners *)
Definition pairs (axs : list axis) : list (list (arr Z)) := map (fun a => [fst (fst a); amap (Z.add 1) (fst (fst a))]) axs.
Lemma product_edges axs e : In e (product (pairs axs)) -> Forall2 edge_of axs e.
Proof.
  revert e. induction axs as [|a axs IH]; intros e H; cbn in H.
  - destruct H as [<-|[]]. constructor.
  - rewrite app_nil_r in H. apply in_app_or in H. destruct H as [H|H]; apply in_map_iff in H; destruct H as (e' & <- & H'); constructor.
    + left. reflexivity. + apply IH, H'. + right. reflexivity. + apply IH, H'.
Qed.
Lemma product_nonempty axs : exists e l, product (pairs axs) = e :: l.
Proof.
  induction axs as [|a axs (e & l & IH)]; [exists [], []; reflexivity|].
  cbn [pairs map product flat_map]. fold (pairs axs). rewrite IH. cbn. eexists. eexists. reflexivity.
Qed.
(** cells and fractions as lists *)
Fixpoint cells (gs : list (list R)) (xs : list R) : list nat :=
  match gs, xs with g :: gs, x :: xs => cellof g x :: cells gs xs | _, _ => [] end.
Fixpoint fracs (gs : list (list R)) (xs : list R) : list R :=
  match gs, xs with g :: gs, x :: xs => frac g x :: fracs gs xs | _, _ => [] end.
Lemma cells_in gs xs : List.Forall grid_ok gs -> length xs = length gs -> in_cell gs xs (cells gs xs).
Proof.
  intro H. revert xs. induction H as [|g gs Hg H IH]; intros [|x xs] L; try discriminate; [constructor|].
  cbn [cells]. constructor; [apply cellof_belongs; exact Hg|]. apply IH. cbn in L. lia.
Qed.
Lemma fracs_fractions gs xs : fracs gs xs = fractions gs xs (cells gs xs).
Proof. revert xs. induction gs as [|g gs IH]; intros [|x xs]; cbn; try reflexivity. rewrite IH. reflexivity. Qed.
Lemma edges_at q gs xs axs e : axes_at q gs xs axs -> List.Forall grid_ok gs -> Forall2 edge_of axs e ->
  exists js, on_grid gs js /\ Forall2 (fun (e : arr Z) j => aget e q = Z.of_nat j) e js.
Proof.
  intro H. revert e. induction H as [|g gs x xs a axs A1 A2 A3 H IH]; intros e HG HE; inversion HE; subst.
  - exists []. split; constructor.
  - inversion HG; subst. destruct (IH _ ltac:(assumption) ltac:(eassumption)) as (js & J1 & J2).
    destruct (cellof_belongs g x ltac:(assumption)) as [B _].
    match goal with E : edge_of a _ |- _ => destruct E as [->| ->] end.
    + exists (cellof g x :: js). split; constructor; try assumption. lia.
    + exists (S (cellof g x) :: js). split; constructor; try assumption. cbn [amap aget]. rewrite A1. lia.
Qed.
Lemma fold_left_map {A B C} (f : C -> B -> C) (g : A -> B) l c : fold_left f (map g l) c = fold_left (fun c a => f c (g a)) l c.
Proof. revert c. induction l; intro c; cbn; [reflexivity|apply IHl]. Qed.
Lemma fold_left_eq {A C} (f g : C -> A -> C) l c : (forall c a, In a l -> f c a = g c a) -> fold_left f l c = fold_left g l c.
Proof. revert c. induction l; intros c H; cbn; [reflexivity|]. rewrite (H c a) by (left; reflexivity). apply IHl. intros; apply H; right; assumption. Qed.
Lemma sum_product q i gs xq xi axs : axes_at q gs xq axs -> axes_at i gs xi axs ->
  forall V c a, fold_left (fun a e => a + V (map (fun ei => Z.to_nat (aget ei q)) e) * (c * wt i e axs)) (product (pairs axs)) a
    = a + c * blend (cells gs xq) (fracs gs xi) V.
Proof.
  intro H. revert xi. induction H as [|g gs x xs ax axs A1 A2 A3 H IH]; intros xi HI V c a; inversion HI as [|g' gs' x' xs' ax' axs' I1 I2 I3 I4]; subst.
  - cbn. ring.
  - cbn [pairs map product flat_map]. fold (pairs axs). rewrite app_nil_r, fold_left_app, !fold_left_map.
    rename I2 into EY.
    cbn [cells fracs blend]. change (fst (fst ax)) with (ax_i ax).
    set (y := frac g x') in *.
    match goal with |- fold_left _ _ (fold_left ?f0 _ _) = _ =>
      replace (fold_left f0 (product (pairs axs)) a) with (a + c * (1 - y) * blend (cells gs xs) (fracs gs xs') (fun js => V (cellof g x :: js))) end.
    2: { rewrite <- (IH _ I4 (fun js => V (cellof g x :: js)) (c * (1 - y)) a). apply fold_left_eq.
         intros b e _. cbn [map wt]. rewrite A1, Nat2Z.id, Z.eqb_refl, EY. cbn [fval]. ring. }
    set (b := a + c * (1 - y) * _).
    etransitivity; [apply (fold_left_eq _ (fun a e => a + (fun js => V (S (cellof g x) :: js)) (map (fun ei => Z.to_nat (aget ei q)) e) * (c * y * wt i e axs)))|].
    { intros b' e _. cbn [map wt amap aget]. rewrite A1. replace (Z.to_nat (1 + Z.of_nat (cellof g x))) with (S (cellof g x)) by lia.
         replace (1 + aget (ax_i ax) i =? aget (ax_i ax) i)%Z with false by (symmetry; apply Z.eqb_neq; lia). rewrite EY. cbn [fval]. ring. }
    etransitivity; [apply (IH _ I4 (fun js => V (S (cellof g x) :: js)) (c * y))|]. unfold b. ring.
Qed.

Lemma fold_res_value s (values : tens) (axs : list axis) (sv sw : res shape) L :
  (forall e, In e L -> exists v, gather s values e = Ok v /\ ash v = sv) -> (forall e, In e L -> ash (edge_weight s e axs) = sw) ->
  forall z, exists r, fold_res (fun (r : tens) edges => v <- gather s values edges ;; Ok (r + v * edge_weight s edges axs)%num) L z = Ok r /\
    ash r = fold_left (fun sh (_ : list (arr Z)) => bcr sh (bcr sv sw)) L (ash z) /\
    forall i val a, aget z i = Fin a ->
      (forall e v, In e L -> gather s values e = Ok v -> fmul (aget v i) (aget (edge_weight s e axs) i) = Fin (val e)) ->
      aget r i = Fin (fold_left (fun a e => a + val e) L a).
Proof.
  induction L as [|e L IH]; intros HV HW z.
  - exists z. split; [reflexivity|]. split; [reflexivity|]. intros i val a E _. exact E.
  - destruct (HV e) as (v & Ev & Sv); [left; reflexivity|]. cbn [fold_res]. rewrite Ev. cbn [rbind].
    destruct (IH (fun e' h => HV e' (or_intror h)) (fun e' h => HW e' (or_intror h)) (z + v * edge_weight s e axs)%num) as (r & Er & Sr & Vr).
    exists r. split; [exact Er|]. split.
    + rewrite Sr. cbn [fold_left nadd nmul NumT amap2 ash]. rewrite Sv, (HW e) by (left; reflexivity). reflexivity.
    + intros i val a E H. cbn [fold_left]. apply Vr.
      * cbn [nadd nmul NumT amap2 aget]. rewrite E, (H e v) by (try (left; reflexivity); exact Ev). reflexivity.
      * intros e' v' He'. apply H. right. exact He'.
Qed.

(** ** out of bounds *)
Lemma filled_bool gs xs : length xs = length gs ->
  existsb (fun p => Rleb (snd p) (nth 0 (fst p) 0) || Rltb (last (fst p) 0) (snd p)) (combine gs xs) = true <-> filled gs xs.
Proof.
  intro L. rewrite existsb_exists. split.
  - intros (p & Hp & H). apply (In_nth _ _ ([], 0)) in Hp. destruct Hp as (n & Hn & <-).
    rewrite combine_length in Hn. rewrite combine_nth in H by lia. cbn [fst snd] in H.
    exists n. split; [lia|]. apply orb_prop in H. unfold Rleb, Rltb in H. destruct H as [H|H].
    + left. destruct (Rle_dec (nth n xs 0) (nth 0 (nth n gs []) 0)); [assumption|discriminate].
    + right. destruct (Rlt_dec (last (nth n gs []) 0) (nth n xs 0)); [assumption|discriminate].
  - intros (n & Hn & H). exists (nth n gs [], nth n xs 0). split.
    + rewrite <- combine_nth by lia. apply nth_In. rewrite combine_length. lia.
    + cbn [fst snd]. unfold Rleb, Rltb. destruct H as [H|H].
      * destruct (Rle_dec (nth n xs 0) (nth 0 (nth n gs []) 0)); [reflexivity|contradiction].
      * destruct (Rlt_dec (last (nth n gs []) 0) (nth n xs 0)); [apply orb_true_r|contradiction].
Qed.
Lemma out_at s axs o : List.Forall (ax_shape s) axs -> ash o = Ok s ->
  ash (fold_left (fun (o : arr bool) (a : axis) => amap2 orb o (snd (fst a))) axs o) = Ok s /\
  forall i gs xs, axes_at i gs xs axs ->
    aget (fold_left (fun (o : arr bool) (a : axis) => amap2 orb o (snd (fst a))) axs o) i
    = aget o i || existsb (fun p => Rleb (snd p) (nth 0 (fst p) 0) || Rltb (last (fst p) 0) (snd p)) (combine gs xs).
Proof.
  intro HF. revert o. induction HF as [|a axs Ha HF IH]; intros o Ho.
  - split; [exact Ho|]. intros i gs xs HA. inversion HA; subst. cbn. rewrite orb_false_r. reflexivity.
  - cbn [fold_left]. destruct Ha as (A1 & A2 & A3). destruct (IH (amap2 orb o (snd (fst a)))) as [S V].
    { cbn [amap2 ash]. rewrite Ho. change (snd (fst a)) with (ax_o a). rewrite A2. cbn [bcr]. rewrite bc_refl. reflexivity. }
    split; [exact S|]. intros i gs xs HA. inversion HA; subst. rewrite (V i _ _ ltac:(eassumption)).
    cbn [amap2 aget combine existsb fst snd]. change (snd (fst a)) with (ax_o a).
    match goal with E : aget (ax_o a) i = _ |- _ => rewrite E end. rewrite <- orb_assoc. reflexivity.
Qed.

(** ** the result, element by element *)
Lemma grid_core gs (T : shape) values coords s xs : List.Forall grid_ok gs ->
  ash values = Ok (T ++ rev (map (@length R) gs)) -> test_points (length gs) s coords xs ->
  exists (r : tens) (o : arr bool),
    (forall fill, regular_grid_interp (map (map Fin) gs) values coords fill =
      let r' := match fill with None => r | Some f => nsw o (alit f) r end in rmap (fun _ => r') (ash r')) /\
    ash o = Ok s /\
    (exists (e : list (arr Z)) L, ash r = fold_left (fun sh (_ : list (arr Z)) => bcr sh (bcr (Ok (T ++ s)) (Ok s))) (e :: L) (Ok (T ++ s))) /\
    forall i xq xi, length xq = length gs -> length xi = length gs ->
      (forall k, (k < length gs)%nat -> aget coords (cons_ix k (fun ax => i (ax + length T)%nat)) = Fin (nth k xq 0)) ->
      (forall k, (k < length gs)%nat -> aget coords (cons_ix k i) = Fin (nth k xi 0)) ->
      (aget o i = true <-> filled gs xi) /\
      forall V, (forall js, on_grid gs js -> aget values (fun ax => if Nat.ltb ax (length T) then i ax else nth (ax - length T) (rev js) O) = Fin (V js)) ->
      aget r i = Fin (blend (cells gs xq) (fracs gs xi) V).
Proof.
  intros HG HV [HC HX].
  destruct (grid_axes_ok (length gs) s coords gs HC HG 0 ltac:(lia)) as (axs & EA & LA & FA & VA).
  { intros i k Hi Hk. eexists. apply (HX i Hi). exact Hk. }
  destruct (out_at s axs (mkA (Ok s) (fun _ => false)) FA eq_refl) as [SO VO].
  assert (HGa : forall e, In e (product (pairs axs)) -> exists v, gather s values e = Ok v /\ ash v = Ok (T ++ s) /\
    forall i js, on_grid gs js -> Forall2 (fun (e : arr Z) j => aget e (fun ax => i (ax + length T)%nat) = Z.of_nat j) e js ->
      aget v i = aget values (fun ax => if Nat.ltb ax (length T) then i ax else nth (ax - length T) (rev js) O)).
  { intros e He. apply product_edges in He. apply (gather_ok s T gs values e HV).
    - rewrite <- LA. symmetry. apply (forall2_len _ _ _ He).
    - intros i Hi. destruct (HX i Hi) as [L1 L2]. apply (edges_at i gs (xs i) axs e); try assumption. apply VA; assumption. }
  destruct (fold_res_value s values axs (Ok (T ++ s)) (Ok s) (product (pairs axs))) with (z := mkA (Ok (T ++ s)) (fun _ : idx => Fin 0)) as (r & Er & Sr & Vr).
  { intros e He. destruct (HGa e He) as (v & E1 & E2 & _). exists v. split; assumption. }
  { intros e He. apply (weight_at s e axs (product_edges _ _ He) FA). }
  exists r, (fold_left (fun (o : arr bool) (a : axis) => amap2 orb o (snd (fst a))) axs (mkA (Ok s) (fun _ => false))).
  split.
  { intro fill. unfold regular_grid_interp. rewrite HC. cbn [rmap rbind tl]. rewrite EA. cbn [rbind]. rewrite HV. cbn [rbind].
    rewrite !map_length.
    replace (firstn (length (T ++ rev (map (@length R) gs)) - length gs) (T ++ rev (map (@length R) gs))) with T.
    2: { rewrite app_length, rev_length, map_length. replace (length T + length gs - length gs)%nat with (length T) by lia.
         rewrite firstn_app, Nat.sub_diag, firstn_all, firstn_O, app_nil_r. reflexivity. }
    fold (pairs axs). rewrite Er. cbn [rbind]. reflexivity. }
  split; [exact SO|]. split.
  { destruct (product_nonempty axs) as (e & L & E). exists e, L. rewrite Sr, E. reflexivity. }
  intros i xq xi Lq Li Hq Hi. assert (Aq := VA _ xq Lq Hq). assert (Ai := VA i xi Li Hi).
  split. { rewrite (VO i gs xi Ai). cbn [aget orb]. apply filled_bool. exact Li. }
  intros V HVV.
  rewrite (Vr i (fun e => V (map (fun ei => Z.to_nat (aget ei (fun ax => i (ax + length T)%nat))) e) * (1 * wt i e axs)) 0 eq_refl).
  { rewrite (sum_product _ _ _ _ _ _ Aq Ai V 1 0). f_equal. ring. }
  intros e v He Ev. destruct (HGa e He) as (v' & Ev' & _ & Vv). rewrite Ev in Ev'. injection Ev' as <-.
  assert (HE := product_edges _ _ He). destruct (edges_at _ _ _ _ _ Aq HG HE) as (js & J1 & J2).
  rewrite (Vv i js J1 J2), (HVV js J1), (proj2 (weight_at s e axs HE FA) i gs xi Ai). cbn [fmul].
  replace (map (fun ei => Z.to_nat (aget ei (fun ax => i (ax + length T)%nat))) e) with js; [f_equal; ring|].
  clear - J2. induction J2 as [|e j es js E J IH]; [reflexivity|]. cbn [map]. rewrite E, Nat2Z.id, <- IH. reflexivity.
Qed.
