(** * Rounding errors in grid interpolation *)
From Coq Require Import Reals List Bool Arith ZArith Lra Lia Psatz FunctionalExtensionality.
From Verif Require Import Num CoreOps Inst CoreFlux M_units M_kepler M_tensor M_simple M_ttv M_limbdark M_interpolated M_grid
  Spec_array Spec_light Spec_grid Spec_float Spec_float2 Spec_float3 L_fl L_real L_shapeS L_grid1 L_grid2.
Import ListNotations.
Open Scope R_scope.

Section Arr.
Variable rd : rounder.
Variable u : R.
Hypothesis acc : accurate u rd.
Notation NR := (rounded_tens rd).

(** the numbers that are computed *)
Definition cfrac (g : list R) (x : R) : R :=
  let g0 := nth (cellof g x) g 0 in let g1 := nth (S (cellof g x)) g 0 in
  let a := rd OSub x g0 (x - g0) in let b := rd OSub g1 g0 (g1 - g0) in rd ODiv a b (a / b).
Definition clow (y : R) : R := let one := rd OLit 1 0 1 in rd OSub one y (one - y).
Fixpoint cfracs (gs : list (list R)) (xs : list R) : list R :=
  match gs, xs with g :: gs, x :: xs => cfrac g x :: cfracs gs xs | _, _ => [] end.
Fixpoint crun (is : list nat) (ys : list R) (V : list nat -> R) (a w : R) : R :=
  match is, ys with
  | i :: is, y :: ys => crun is ys (fun js => V (S i :: js)) (crun is ys (fun js => V (i :: js)) a (rd OMul w (clow y) (w * clow y))) (rd OMul w y (w * y))
  | _, _ => let p := rd OMul (V []) w (V [] * w) in rd OAdd a p (a + p)
  end.

Lemma rd_nz op x y r : r <> 0 -> rd op x y r <> 0.
Proof.
  intros H E. destruct acc as [U A]. specialize (A op x y r). rewrite E in A. replace (0 - r) with (- r) in A by ring. rewrite Rabs_Ropp in A.
  assert (0 < Rabs r) by (apply Rabs_pos_lt; exact H). nra.
Qed.
Lemma raxis_ok g x s : grid_ok g -> ash x = Ok s -> (forall i, inside s i -> exists v, aget x i = Fin v) ->
  exists I B y, @grid_axis NR (map Fin g) x = Ok (I, B, y) /\ ash I = Ok s /\ ash B = Ok s /\ ash y = Ok s /\
    forall i v, aget x i = Fin v ->
      aget I i = Z.of_nat (cellof g v) /\ aget y i = Fin (cfrac g v) /\ aget B i = (Rleb v (nth 0 g 0) || Rltb (last g 0) v).
Proof.
  intros HG HS HV. destruct HG as [H2 HI]. assert (HG : grid_ok g) by (split; assumption).
  unfold grid_axis. cbv zeta. rewrite map_length.
  set (I := amap (zclip 0 (Z.of_nat (length g) - 2)) (amap (fun x => (searchsorted (map Fin g) x - 1)%Z) x)).
  assert (EI : forall i v, aget x i = Fin v -> aget I i = Z.of_nat (cellof g v)).
  { intros i v E. cbn [I amap aget]. rewrite E, search_cnt. apply zclip_cell. exact H2. }
  assert (SI : ash I = Ok s) by exact HS.
  destruct (amap_res_ok (take (map Fin g)) NaN I s SI) as (g0 & -> & S0 & V0).
  { intros i Hi. destruct (HV i Hi) as [v E]. rewrite (EI i v E). destruct (cellof_belongs g v HG) as [B _]. eexists. apply take_fin. lia. }
  cbn [rbind].
  destruct (amap_res_ok (take (map Fin g)) NaN (amap (Z.add 1) I) s SI) as (g1 & -> & S1 & V1).
  { intros i Hi. destruct (HV i Hi) as [v E]. cbn [amap aget]. rewrite (EI i v E). destruct (cellof_belongs g v HG) as [B _]. eexists.
    replace (1 + Z.of_nat (cellof g v))%Z with (Z.of_nat (S (cellof g v))) by lia. apply take_fin. lia. }
  cbn [rbind]. do 3 eexists. split; [reflexivity|]. split; [exact SI|]. split; [exact HS|].
  split. { cbn [ndiv nsub rounded_tens amap2 ash]. rewrite HS, S0, S1. cbn [bcr]. rewrite bc_refl. cbn [bcr]. rewrite bc_refl. reflexivity. }
  intros i v E. destruct (cellof_belongs g v HG) as [B _]. split; [apply EI; exact E|].
  assert (G0 : aget g0 i = Fin (nth (cellof g v) g 0)).
  { apply V0. rewrite (EI i v E). apply take_fin. lia. }
  assert (G1 : aget g1 i = Fin (nth (S (cellof g v)) g 0)).
  { apply V1. cbn [amap aget]. rewrite (EI i v E). replace (1 + Z.of_nat (cellof g v))%Z with (Z.of_nat (S (cellof g v))) by lia. apply take_fin. lia. }
  split.
  - cbn [ndiv nsub rounded_tens amap2 aget]. rewrite E, G0, G1. assert (Q := HI (cellof g v) (S (cellof g v)) ltac:(lia) B).
    cbn [ndiv nsub rounded_fl]. unfold fsub. cbn [fadd fneg rnd value].
    rewrite fdiv_fin; [reflexivity|]. apply rd_nz. lra.
  - cbn [amap aget]. rewrite E, search_cnt. apply outside_cnt. exact HG.
Qed.
(** the axes evaluated at index i for coordinates xs *)
Inductive raxes_at (i : idx) : list (list R) -> list R -> list axis -> Prop :=
| ra_nil : raxes_at i [] [] []
| ra_cons g gs x xs a axs : aget (ax_i a) i = Z.of_nat (cellof g x) -> aget (ax_y a) i = Fin (cfrac g x) ->
    aget (ax_o a) i = (Rleb x (nth 0 g 0) || Rltb (last g 0) x) -> raxes_at i gs xs axs -> raxes_at i (g :: gs) (x :: xs) (a :: axs).
Lemma raxes_ok d s coords gs : ash coords = Ok (d :: s) -> List.Forall grid_ok gs -> forall n, (n + length gs <= d)%nat ->
  (forall i k, inside s i -> (k < d)%nat -> exists v, aget coords (cons_ix k i) = Fin v) ->
  exists axs, @grid_axes NR n (map (map Fin) gs) coords = Ok axs /\ length axs = length gs /\ List.Forall (ax_shape s) axs /\
    forall i xs, length xs = length gs -> (forall k, (k < length gs)%nat -> aget coords (cons_ix (n + k) i) = Fin (nth k xs 0)) -> raxes_at i gs xs axs.
Proof.
  intros HS HG. induction HG as [|g gs Hg HG IH]; intros n Hn HV.
  - exists []. split; [reflexivity|]. split; [reflexivity|]. split; [constructor|]. intros i xs Hl _. destruct xs; [constructor|discriminate].
  - cbn [length] in Hn. cbn [map grid_axes]. unfold last_axis. rewrite HS.
    replace (Nat.ltb n d) with true by (symmetry; apply Nat.ltb_lt; lia). cbn [rbind].
    destruct (raxis_ok g (mkA (Ok s) (fun i => aget coords (cons_ix n i))) s Hg eq_refl) as (I & B & y & E & SI & SB & Sy & V).
    { intros i Hi. apply HV; [exact Hi|lia]. }
    rewrite E. cbn [rbind]. destruct (IH (S n)) as (axs & EA & LA & FA & VA); [lia|exact HV|].
    rewrite EA. cbn [rbind]. eexists. split; [reflexivity|]. split; [cbn [length]; rewrite LA; reflexivity|].
    split; [constructor; [repeat split; assumption|exact FA]|].
    intros i xs Hl HX. destruct xs as [|x xs]; [discriminate|]. cbn [length] in Hl, HX.
    destruct (V i x) as (V1 & V2 & V3). { assert (Q := HX O ltac:(lia)). rewrite Nat.add_0_r in Q. exact Q. }
    constructor; try assumption. apply VA; [lia|]. intros k Hk. assert (Q := HX (S k) ltac:(lia)). rewrite <- plus_n_Sm in Q. exact Q.
Qed.

(** ** weights *)
Fixpoint rwt (i : idx) (e : list (arr Z)) (axs : list axis) (w : R) : R :=
  match e, axs with
  | e :: es, a :: axs => let y := fval (aget (ax_y a) i) in let f := if Z.eqb (aget e i) (aget (ax_i a) i) then clow y else y in rwt i es axs (rd OMul w f (w * f))
  | _, _ => w
  end.
Lemma rweight_at s e axs : Forall2 edge_of axs e -> List.Forall (ax_shape s) axs ->
  ash (@edge_weight NR s e axs) = Ok s /\
  forall i gs xs, raxes_at i gs xs axs -> aget (@edge_weight NR s e axs) i = Fin (rwt i e axs 1).
Proof.
  intros HE HF. unfold edge_weight.
  set (F := fun (w : tens) (p : arr Z * axis) => let '(e, (i, _, y)) := p in @nmul _ _ NR w (@nsw _ _ NR (amap2 Z.eqb e i) (@nsub _ _ NR (@nlit _ _ NR 1) y) y)).
  assert (G : forall w, ash w = Ok s ->
    ash (fold_left F (combine e axs) w) = Ok s /\
    forall i gs xs r, raxes_at i gs xs axs -> aget w i = Fin r ->
    aget (fold_left F (combine e axs) w) i = Fin (rwt i e axs r)).
  { induction HE as [|a e0 axs e He HE IH]; intros w Hw.
    - split; [exact Hw|]. intros i gs xs r _ E. cbn [combine fold_left rwt]. exact E.
    - inversion HF as [|? ? Ha HF']; subst. specialize (IH HF'). cbn [combine fold_left]. destruct a as [[I B] y]. destruct Ha as (A1 & A2 & A3). cbn [ax_i ax_o ax_y fst snd] in *.
      set (w' := F w (e0, (I, B, y))).
      assert (SE : ash e0 = Ok s) by (destruct He as [->| ->]; exact A1).
      assert (Sw : ash w' = Ok s).
      { unfold w', F. cbn [nmul nsub nlit nsw rounded_tens amap2 amap3 ash alit]. rewrite Hw, SE, A1, A3. repeat first [rewrite bc_refl | progress cbn [bcr bc]]. reflexivity. }
      destruct (IH w' Sw) as [S1 V1]. split; [exact S1|].
      intros i gs xs r HA E. inversion HA as [|g gs' x xs' ? ? B1 B2 B3 B4]; subst.
      cbn [ax_i ax_o ax_y fst snd] in B1, B2, B3. cbn [rwt]. cbn [ax_i ax_y fst snd].
      apply (V1 i gs' xs' _ B4).
      unfold w', F. cbn [nmul nsub nlit nsw rounded_tens amap2 amap3 aget alit]. rewrite E, B2.
      cbn [fval]. destruct (Z.eqb (aget e0 i) (aget I i)); cbn [nmul nsub nlit rounded_fl]; unfold fsub; cbn [fadd fmul fneg rnd value]; reflexivity. }
  destruct (G (mkA (Ok s) (fun _ => Fin 1)) eq_refl) as [G1 G2]. split; [exact G1|].
  intros i gs xs HA. exact (G2 i gs xs 1 HA eq_refl).
Qed.
Lemma redges_at q gs xs axs e : raxes_at q gs xs axs -> List.Forall grid_ok gs -> Forall2 edge_of axs e ->
  exists js, on_grid gs js /\ Forall2 (fun (e : arr Z) j => aget e q = Z.of_nat j) e js.
Proof.
  intro H. revert e. induction H as [|g gs x xs a axs A1 A2 A3 H IH]; intros e HG HE; inversion HE; subst.
  - exists []. split; constructor.
  - inversion HG; subst. destruct (IH _ ltac:(assumption) ltac:(eassumption)) as (js & J1 & J2).
    destruct (cellof_belongs g x ltac:(assumption)) as [B _].
    match goal with E : edge_of a _ |- _ => destruct E as [->| ->] end.
    + exists (cellof g x :: js). split; constructor; try assumption. lia.
    + exists (S (cellof g x) :: js). split; constructor; try assumption. cbn [amap aget]. rewrite A1. lia.
Qed.
Lemma rsum_product i gs xi axs : raxes_at i gs xi axs ->
  forall V w a, fold_left (fun a e => let p := rd OMul (V (map (fun ei => Z.to_nat (aget ei i)) e)) (rwt i e axs w) (V (map (fun ei => Z.to_nat (aget ei i)) e) * rwt i e axs w) in rd OAdd a p (a + p)) (product (pairs axs)) a
    = crun (cells gs xi) (cfracs gs xi) V a w.
Proof.
  intro H. induction H as [|g gs x xs ax axs A1 A2 A3 H IH]; intros V w a.
  - reflexivity.
  - cbn [pairs map product flat_map]. fold (pairs axs). rewrite app_nil_r, fold_left_app, !fold_left_map.
    cbn [cells cfracs crun]. change (fst (fst ax)) with (ax_i ax). rewrite <- !IH.
    etransitivity; [apply fold_left_eq|].
    { intros c e _. cbn [map rwt amap aget]. rewrite A1. replace (Z.to_nat (1 + Z.of_nat (cellof g x))) with (S (cellof g x)) by lia.
      replace (1 + Z.of_nat (cellof g x) =? Z.of_nat (cellof g x))%Z with false by (symmetry; apply Z.eqb_neq; lia). rewrite A2. cbn [fval]. reflexivity. }
    f_equal. apply fold_left_eq. intros c e _. cbn [map rwt amap aget]. rewrite A1, Nat2Z.id, Z.eqb_refl, A2. cbn [fval]. reflexivity.
Qed.
Lemma rfold_value s (values : tens) (axs : list axis) (sv sw : res shape) L :
  (forall e, In e L -> exists v, gather s values e = Ok v /\ ash v = sv) -> (forall e, In e L -> ash (@edge_weight NR s e axs) = sw) ->
  forall z, exists r, fold_res (fun (r : tens) edges => v <- gather s values edges ;; Ok (@nadd _ _ NR r (@nmul _ _ NR v (@edge_weight NR s edges axs)))) L z = Ok r /\
    ash r = fold_left (fun sh (_ : list (arr Z)) => bcr sh (bcr sv sw)) L (ash z) /\
    forall i V W a, aget z i = Fin a ->
      (forall e v, In e L -> gather s values e = Ok v -> aget v i = Fin (V e) /\ aget (@edge_weight NR s e axs) i = Fin (W e)) ->
      aget r i = Fin (fold_left (fun a e => let p := rd OMul (V e) (W e) (V e * W e) in rd OAdd a p (a + p)) L a).
Proof.
  induction L as [|e L IH]; intros HV HW z.
  - exists z. split; [reflexivity|]. split; [reflexivity|]. intros i V W a E _. exact E.
  - destruct (HV e) as (v & Ev & Sv); [left; reflexivity|]. cbn [fold_res]. rewrite Ev. cbn [rbind].
    destruct (IH (fun e' h => HV e' (or_intror h)) (fun e' h => HW e' (or_intror h)) (@nadd _ _ NR z (@nmul _ _ NR v (@edge_weight NR s e axs)))) as (r & Er & Sr & Vr).
    exists r. split; [exact Er|]. split.
    + rewrite Sr. cbn [fold_left nadd nmul rounded_tens amap2 ash]. rewrite Sv, (HW e) by (left; reflexivity). reflexivity.
    + intros i V W a E H. cbn [fold_left]. apply Vr.
      * cbn [nadd nmul rounded_tens amap2 aget]. destruct (H e v (or_introl eq_refl) Ev) as [H1 H2]. rewrite E, H1, H2. reflexivity.
      * intros e' v' He'. apply H. right. exact He'.
Qed.
Lemma rout_at s axs o : List.Forall (ax_shape s) axs -> ash o = Ok s ->
  ash (fold_left (fun (o : arr bool) (a : axis) => amap2 orb o (snd (fst a))) axs o) = Ok s /\
  forall i gs xs, raxes_at i gs xs axs ->
    aget (fold_left (fun (o : arr bool) (a : axis) => amap2 orb o (snd (fst a))) axs o) i
    = aget o i || existsb (fun p => Rleb (snd p) (nth 0 (fst p) 0) || Rltb (last (fst p) 0) (snd p)) (combine gs xs).
Proof.
  intro HF. revert o. induction HF as [|a axs Ha HF IH]; intros o Ho.
  - split; [exact Ho|]. intros i gs xs HA. inversion HA; subst. cbn. rewrite orb_false_r. reflexivity.
  - cbn [fold_left]. destruct Ha as (A1 & A2 & A3). destruct (IH (amap2 orb o (snd (fst a)))) as [S V].
    { cbn [amap2 ash]. rewrite Ho. change (snd (fst a)) with (ax_o a). rewrite A2. cbn [bcr]. rewrite bc_refl. reflexivity. }
    split; [exact S|]. intros i gs xs HA. inversion HA; subst. rewrite (V i _ _ ltac:(eassumption)).
    cbn [amap2 aget combine existsb fst snd]. change (snd (fst a)) with (ax_o a).
    match goal with E : aget (ax_o a) i = _ |- _ => rewrite E end. rewrite <- orb_assoc. reflexivity.
Qed.

(** ** the result, element by element *)
Lemma shape_fold s (L : list (list (arr Z))) : fold_left (fun sh (_ : list (arr Z)) => bcr sh (bcr (Ok s) (Ok s))) L (Ok s) = Ok s.
Proof. induction L as [|e L IH]; [reflexivity|]. cbn [fold_left]. replace (bcr (Ok s) (bcr (Ok s) (Ok s))) with (Ok s : res shape); [exact IH|]. cbn [bcr]. rewrite bc_refl. cbn [bcr]. rewrite bc_refl. reflexivity. Qed.
Lemma rgrid_core gs values V coords s xs : List.Forall grid_ok gs -> grid_data gs values V -> test_points (length gs) s coords xs ->
  exists (r : tens), computed_interp rd (map (map Fin) gs) values coords None = Ok r /\ ash r = Ok s /\
    (forall i, inside s i -> aget r i = Fin (crun (cells gs (xs i)) (cfracs gs (xs i)) V 0 1)) /\
    forall f, exists r', computed_interp rd (map (map Fin) gs) values coords (Some f) = Ok r' /\ ash r' = Ok s /\
      forall i, inside s i -> (filled gs (xs i) -> aget r' i = f) /\ (~ filled gs (xs i) -> aget r' i = aget r i).
Proof.
  intros HG [HV HVV] [HC HX].
  destruct (raxes_ok (length gs) s coords gs HC HG 0 ltac:(lia)) as (axs & EA & LA & FA & VA).
  { intros i k Hi Hk. eexists. apply (HX i Hi). exact Hk. }
  destruct (rout_at s axs (mkA (Ok s) (fun _ => false)) FA eq_refl) as [SO VO].
  assert (HGa : forall e, In e (product (pairs axs)) -> exists v, gather s values e = Ok v /\ ash v = Ok s /\
    forall i js, on_grid gs js -> Forall2 (fun (e : arr Z) j => aget e i = Z.of_nat j) e js ->
      aget v i = aget values (fun ax => nth ax (rev js) O)).
  { intros e He. apply product_edges in He. destruct (gather_ok s [] gs values e HV) as (v & G1 & G2 & G3).
    - rewrite <- LA. symmetry. apply (forall2_len _ _ _ He).
    - intros i Hi. destruct (HX i Hi) as [L1 L2]. apply (redges_at i gs (xs i) axs e); try assumption. apply VA; assumption.
    - exists v. split; [exact G1|]. split; [exact G2|]. intros i js J1 J2.
      assert (EQ : (fun ax => i (ax + length (@nil nat))%nat) = i) by (extensionality ax; cbn; rewrite Nat.add_0_r; reflexivity).
      rewrite (G3 i js J1) by (rewrite EQ; exact J2). f_equal. extensionality ax. cbn. rewrite Nat.sub_0_r. reflexivity. }
  destruct (rfold_value s values axs (Ok s) (Ok s) (product (pairs axs))) with (z := mkA (Ok s) (fun _ : idx => Fin 0)) as (r & Er & Sr & Vr).
  { intros e He. destruct (HGa e He) as (v & E1 & E2 & _). exists v. split; assumption. }
  { intros e He. apply (rweight_at s e axs (product_edges _ _ He) FA). }
  assert (SR : ash r = Ok s) by (rewrite Sr; apply shape_fold).
  set (o := fold_left (fun (o : arr bool) (a : axis) => amap2 orb o (snd (fst a))) axs (mkA (Ok s) (fun _ => false))) in *.
  assert (ALL : forall fill, computed_interp rd (map (map Fin) gs) values coords fill = let r' := match fill with None => r | Some f => @nsw _ _ NR o (alit f) r end in rmap (fun _ => r') (ash r')).
  { intro fill. unfold computed_interp, regular_grid_interp. rewrite HC. cbn [rmap rbind tl]. rewrite EA. cbn [rbind]. rewrite HV. cbn [rbind].
    rewrite !map_length, rev_length, map_length, Nat.sub_diag. cbn [firstn app]. fold (pairs axs).
    match goal with |- context[fold_res ?f ?l ?z] => replace (fold_res f l z) with (Ok r : res tens) by (symmetry; exact Er) end. cbn [rbind]. reflexivity. }
  exists r. split; [rewrite ALL; cbv zeta; rewrite SR; reflexivity|]. split; [exact SR|]. split.
  - intros i Hi. destruct (HX i Hi) as [L1 L2]. assert (Ai := VA i (xs i) L1 L2).
    rewrite <- (rsum_product i gs (xs i) axs Ai V 1 0).
    refine (Vr i (fun e => V (map (fun ei => Z.to_nat (aget ei i)) e)) (fun e => rwt i e axs 1) 0 eq_refl _).
    intros e v He Ev. destruct (HGa e He) as (v' & Ev' & _ & Vv). rewrite Ev in Ev'. injection Ev' as <-.
    assert (HE := product_edges _ _ He). destruct (redges_at _ _ _ _ _ Ai HG HE) as (js & J1 & J2).
    split; [|apply (proj2 (rweight_at s e axs HE FA) i gs (xs i) Ai)].
    rewrite (Vv i js J1 J2), (HVV js J1). do 2 f_equal.
    clear - J2. induction J2 as [|e j es js E J IH]; [reflexivity|]. cbn [map]. rewrite E, Nat2Z.id, <- IH. reflexivity.
  - intro f. exists (@nsw _ _ NR o (alit f) r).
    assert (SH : ash (@nsw _ _ NR o (alit f) r) = Ok s). { cbn [nsw rounded_tens amap3 ash alit]. rewrite SO, SR. repeat first [rewrite bc_refl | progress cbn [bcr bc]]. reflexivity. }
    split; [rewrite ALL; cbv zeta; rewrite SH; reflexivity|]. split; [exact SH|].
    intros i Hi. destruct (HX i Hi) as [L1 L2]. assert (Ai := VA i (xs i) L1 L2). assert (Q := VO i gs (xs i) Ai). cbn [aget orb] in Q.
    assert (FB := filled_bool gs (xs i) L1). rewrite <- Q in FB.
    cbn [nsw rounded_tens amap3 aget alit]. destruct (aget o i); split; intro H; try reflexivity; exfalso; [apply H, FB; reflexivity|apply FB in H; discriminate].
Qed.
End Arr.
