(** * The lists given to TTVOrbit (C107) *)
From Coq Require Import Reals List Bool Arith ZArith Lra Lia String.
From Verif Require Import Num CoreOps Inst M_units M_kepler M_kwargs M_fin M_tensor M_ttv Spec_orbit Spec_params Spec_array Spec_ttv Spec_ttvlist
  L_real L_params3 L_ttv1 L_ttv2 L_ttv3 L_ttv4 L_ttvlab.
Import ListNotations.
Local Notation length := List.length.

Lemma tix_has a n i : has_entries a n -> ((i < n)%nat -> exists v, tix a i = Ok v) /\ ((n <= i)%nat -> tix a i = Err IndexErr).
Proof.
  unfold tix. intros [->|[-> ->]]; split; intro H; try lia; try reflexivity.
  - destruct (Nat.ltb_spec i n); [eexists; reflexivity|lia].
  - destruct (Nat.ltb_spec i n); [lia|reflexivity].
Qed.
Lemma labels_zarange {A} (ttvs : list (list A)) inds :
  match inds with None => map (fun ttv => zarange (Z.of_nat (length ttv))) ttvs | Some l => l end = labels_of ttvs inds.
Proof. destruct inds; [reflexivity|]. apply map_ext. intro l. unfold zarange. rewrite Nat2Z.id. reflexivity. Qed.

Lemma lmap2_fit {A C D} (f : A -> C -> D) a b : (length b = length a \/ length b = 1%nat) -> exists r, lmap2 f a b = Ok r /\ length r = length a.
Proof.
  intro H. unfold lmap2. destruct (Nat.eqb_spec (length a) (length b)) as [E|E].
  - eexists. split; [reflexivity|]. rewrite map_length, combine_length. lia.
  - destruct H as [H|H]; [lia|]. destruct b as [|y [|]]; try discriminate H. destruct a as [|x [|]]; cbn in E; try lia; (eexists; split; [reflexivity|cbn; rewrite ?map_length; reflexivity]).
Qed.
Lemma lmap2_misfit {A C D} (f : A -> C -> D) a b : length b <> length a -> length b <> 1%nat ->
  lmap2 f a b = Err ShapeErr \/ (length a = 1%nat /\ exists r, lmap2 f a b = Ok r /\ length r = length b).
Proof.
  intros H1 H2. unfold lmap2. destruct (Nat.eqb_spec (length a) (length b)) as [E|E]; [lia|].
  destruct a as [|x [|x' a]].
  - left. destruct b as [|y [|]]; cbn in *; try lia. reflexivity.
  - right. split; [reflexivity|]. eexists. split; [reflexivity|apply map_length].
  - left. destruct b as [|y [|]]; cbn in *; try lia; reflexivity.
Qed.
Lemma set_all_total {A} (ps : list (Z * A)) : forall l, (forall p, In p ps -> (- Z.of_nat (length l) <= fst p < Z.of_nat (length l))%Z) -> exists r, set_all l ps = Ok r.
Proof.
  induction ps as [|[z v] ps IH]; intros l H; [eexists; reflexivity|]. cbn [set_all]. assert (Hz := H (z, v) (or_introl eq_refl)). cbn in Hz.
  assert (E : exists i, pyix (length l) z = Ok i).
  { unfold pyix. destruct (Z.leb_spec 0 z), (Z.ltb_spec z (Z.of_nat (length l))); cbn [andb]; try (eexists; reflexivity); try lia;
    destruct (Z.leb_spec (- Z.of_nat (length l)) z), (Z.ltb_spec z 0); cbn [andb]; try (eexists; reflexivity); lia. }
  destruct E as (i & ->). cbn [rbind]. apply IH. intros p Hp. rewrite set_nth_len. apply H. right. exact Hp.
Qed.
Lemma set_all_err {A} (ps : list (Z * A)) : forall l e, set_all l ps = Err e -> e = IndexErr.
Proof.
  induction ps as [|[z v] ps IH]; intros l e H; [discriminate H|]. cbn [set_all] in H. destruct (pyix (length l) z) as [i|e'] eqn:E; cbn [rbind] in H; [apply (IH _ _ H)|].
  unfold pyix in E. destruct (_ && _)%bool; [discriminate E|]. destruct (_ && _)%bool; [discriminate E|]. congruence.
Qed.
Lemma zmax_some z : z <> [] -> exists m, zmax z = Ok m.
Proof. destruct z; [congruence|eexists; reflexivity]. Qed.
Lemma range_max z m : zmax z = Ok m -> in_range z <-> (0 <= m)%Z /\ forall y, In y z -> (- (m + 1) <= y)%Z.
Proof.
  intro E. destruct (zmax_ok z m E) as [I M]. split.
  - intros (m' & I' & P & B). assert (m' = m) as -> by (assert (H1 := M m' I'); assert (H2 := B m I); lia). split; [exact P|]. intros y Hy. apply (B y Hy).
  - intros [P B]. exists m. split; [exact I|]. split; [exact P|]. intros y Hy. split; [apply B, Hy|apply M, Hy].
Qed.

Section P.
Context {T B : Type} {NT : Num T B}.
Lemma all_steps (t0 p : T) z tt : length tt = length z -> z <> [] ->
  exists m, zmax z = Ok m /\ exists e, length e = Z.to_nat (m + 1) /\ ttv_all t0 p z tt = set_all e (combine z tt).
Proof.
  intros L Hz. destruct (zmax_some z Hz) as (m & Em). exists m. split; [exact Em|]. unfold ttv_all. rewrite Em. cbn [rbind].
  eexists. split; [|apply set_sub_len; congruence]. unfold zarange. rewrite !map_length, seq_length. reflexivity.
Qed.
Lemma planet_fits (t0 p : T) z l : fits_labels z l -> exists tt all, ttv_labelled t0 p z l = Ok tt /\ ttv_all t0 p z tt = Ok all /\ all <> [].
Proof.
  intros [C R]. destruct (lmap2_fit nadd (map (fun y => (t0 + p * nlit (IZR y))%num) z) l) as (tt & Et & Lt).
  { rewrite map_length. exact C. }
  rewrite map_length in Lt. exists tt. assert (Hz : z <> []) by (destruct R as (m & I & _); destruct z; [destruct I|congruence]).
  destruct (all_steps t0 p z tt Lt Hz) as (m & Em & e & Le & Ea). apply (range_max z m Em) in R. destruct R as [R1 R2]. destruct (zmax_ok z m Em) as [I M].
  destruct (set_all_total (combine z tt) e) as (all & Hall).
  { intros [y v] Hy. apply in_combine_l in Hy. cbn. assert (H1 := R2 y Hy). assert (H2 := M y Hy). lia. }
  exists all. split; [exact Et|]. split; [rewrite Ea; exact Hall|]. destruct (set_all_any _ _ _ Hall) as (L & _). intros ->. cbn in L. lia.
Qed.
Lemma planet_error (t0 p : T) z l e : label_error z l e -> ttv_labelled t0 p z l = Err e \/ exists tt, ttv_labelled t0 p z l = Ok tt /\ ttv_all t0 p z tt = Err e.
Proof.
  intros [(C & ->)|[(C & -> & ->)|(C & Hz & R & ->)]].
  - unfold ttv_labelled. destruct (lmap2_misfit nadd (map (fun y => (t0 + p * nlit (IZR y))%num) z) l) as [E|(L1 & tt & Et & Lt)].
    { rewrite map_length. intro E. apply C. left. exact E. } { intro E. apply C. right. exact E. }
    + left. exact E.
    + right. exists tt. split; [exact Et|]. rewrite map_length in L1. unfold ttv_all. destruct (zmax_some z) as (m & ->); [intros ->; discriminate L1|]. cbn [rbind].
      unfold set_subtensor. assert (N1 : length tt <> 1%nat) by (rewrite Lt; intro E; apply C; right; exact E).
      destruct tt as [|v [|v' tt]]; [|cbn in N1; congruence|]; rewrite L1; reflexivity.
  - right. destruct (lmap2_fit nadd (map (fun y => (t0 + p * nlit (IZR y))%num) []) l) as (tt & Et & _); [exact C|]. exists tt. split; [exact Et|reflexivity].
  - right. destruct (lmap2_fit nadd (map (fun y => (t0 + p * nlit (IZR y))%num) z) l) as (tt & Et & Lt).
    { rewrite map_length. exact C. }
    rewrite map_length in Lt. exists tt. split; [exact Et|]. destruct (all_steps t0 p z tt Lt Hz) as (m & Em & ex & Le & Ea). rewrite Ea.
    destruct (set_all ex (combine z tt)) as [all|e'] eqn:Es; [|f_equal; apply (set_all_err _ _ _ Es)]. exfalso. apply R, (range_max z m Em).
    destruct (set_all_any _ _ _ Es) as (_ & Rg & _). destruct (zmax_ok z m Em) as [I M].
    assert (K : forall y, In y z -> (- Z.of_nat (length ex) <= y < Z.of_nat (length ex))%Z).
    { intros y Hy. apply In_nth_error in Hy. destruct Hy as (i & Hi). destruct (nth_error tt i) as [v|] eqn:Ev.
      - apply (Rg (y, v) (in_combine_nth _ _ _ _ _ Hi Ev)).
      - apply nth_error_None in Ev. assert (nth_error z i <> None) by congruence. apply nth_error_Some in H. lia. }
    assert (K1 := K m I). split; [lia|]. intros y Hy. assert (K2 := K y Hy). lia.
Qed.
End P.
Lemma fits_or_error {A} z (l : list A) : fits_labels z l \/ exists e, label_error z l e.
Proof.
  unfold fits_labels, label_error. assert (C : counts_fit z l \/ ~ counts_fit z l) by (unfold counts_fit; lia).
  destruct C as [C|C]; [|right; exists ShapeErr; tauto]. destruct z as [|y z]; [right; exists ValueError; tauto|].
  destruct (zmax_some (y :: z)) as (m & Em); [congruence|].
  assert (D : in_range (y :: z) \/ ~ in_range (y :: z)).
  { destruct (Z_le_dec 0 m) as [H|H]; [|right; intro Q; apply (range_max _ _ Em) in Q; tauto].
    destruct (Forall_dec (fun y => (- (m + 1) <= y)%Z) (fun y => Z_le_dec (- (m + 1)) y) (y :: z)) as [F|F]; rewrite Forall_forall in F.
    - left. apply (range_max _ _ Em). auto.
    - right. intro Q. apply (range_max _ _ Em) in Q. tauto. }
  destruct D as [D|D]; [left; split; assumption|]. right. exists IndexErr. right. right. split; [exact C|]. split; [congruence|]. auto.
Qed.

Section A.
Variables (k : consts) (ttvs : list (list fl)) (times : option (list (list fl))) (inds : option (list (list Z))) (kw : list (string * kval tens)) (o : orbit tens) (n n' : nat).
Hypothesis Ho : kep_call k kw = Ok o.
Hypothesis Hn : has_entries (o_period o) n.
Hypothesis Hn' : has_entries (o_t0 o) n'.
Let zs := labels_of ttvs inds.
Let step1 := fun i ttv => t0 <- tix (o_t0 o) i ;; p <- tix (o_period o) i ;; z <- lix zs i ;; ttv_labelled t0 p z ttv.
Let step2 := fun (times : list (list fl)) i x => t0 <- tix (o_t0 o) i ;; p <- tix (o_period o) i ;; tt <- lix times i ;; ttv_all t0 p x tt.
Let step3 := fun i tts => p <- tix (o_period o) i ;; ttv_bins p tts.
Definition enough : Prop := length zs = length ttvs /\ (length ttvs <= n)%nat /\ (length ttvs <= n')%nat.

Lemma init_steps : ttv_init k (targs_of (Some ttvs) times inds kw) =
  (tt <- imap step1 ttvs ;; all <- imap (step2 tt) zs ;; bins <- imap step3 all ;;
   Ok {| tt_orbit := o; tt_ttvs := ttvs; tt_inds := zs; tt_times := tt; tt_period := o_period o; tt_all := all; tt_bins := bins |}).
Proof.
  unfold ttv_init. cbn [ta_ttvs ta_times ta_inds ta_kw targs_of]. rewrite Ho. cbn [rbind]. rewrite labels_zarange. reflexivity.
Qed.
Lemma lix_some {A} (l : list A) i a : nth_error l i = Some a -> lix l i = Ok a.
Proof. intro H. unfold lix. rewrite H. reflexivity. Qed.
Lemma lix_none {A} (l : list A) i : (length l <= i)%nat -> lix l i = Err IndexErr.
Proof. intro H. unfold lix. apply nth_error_None in H. rewrite H. reflexivity. Qed.

(** the first step *)
Lemma step1_fits i l z : nth_error ttvs i = Some l -> nth_error zs i = Some z -> fits_labels z l -> (i < n)%nat -> (i < n')%nat ->
  exists t0 p tt, tix (o_t0 o) i = Ok t0 /\ tix (o_period o) i = Ok p /\ step1 i l = Ok tt /\ exists all, ttv_all t0 p z tt = Ok all /\ all <> [].
Proof.
  intros Hl Hz F L1 L2. destruct (proj1 (tix_has _ _ i Hn') L2) as (t0 & E0). destruct (proj1 (tix_has _ _ i Hn) L1) as (p & Ep).
  destruct (planet_fits t0 p z l F) as (tt & all & E1 & E2 & E3). exists t0, p, tt. split; [exact E0|]. split; [exact Ep|]. split; [|exists all; auto].
  unfold step1. rewrite E0. cbn [rbind]. rewrite Ep. cbn [rbind]. rewrite (lix_some _ _ _ Hz). exact E1.
Qed.

Lemma not_enough : (forall i z l, nth_error zs i = Some z -> nth_error ttvs i = Some l -> fits_labels z l) -> ~ enough ->
  ttv_init k (targs_of (Some ttvs) times inds kw) = Err IndexErr.
Proof.
  intros F NE. rewrite init_steps.
  assert (P1 : forall i l, nth_error ttvs i = Some l -> ((i < n)%nat /\ (i < n')%nat /\ exists z, nth_error zs i = Some z /\ fits_labels z l) \/
     (step1 i l = Err IndexErr /\ ((n <= i)%nat \/ (n' <= i)%nat \/ (length zs <= i)%nat))).
  { intros i l Hl. destruct (le_lt_dec n' i) as [L2|L2].
    { right. split; [|tauto]. unfold step1. rewrite (proj2 (tix_has _ _ i Hn') L2). reflexivity. }
    destruct (proj1 (tix_has _ _ i Hn') L2) as (t0 & E0). destruct (le_lt_dec n i) as [L1|L1].
    { right. split; [|tauto]. unfold step1. rewrite E0. cbn [rbind]. rewrite (proj2 (tix_has _ _ i Hn) L1). reflexivity. }
    destruct (proj1 (tix_has _ _ i Hn) L1) as (p & Ep). destruct (nth_error zs i) as [z|] eqn:Ez.
    { left. split; [exact L1|]. split; [exact L2|]. exists z. split; [reflexivity|]. apply (F i z l Ez Hl). }
    apply nth_error_None in Ez. right. split; [|tauto]. unfold step1. rewrite E0. cbn [rbind]. rewrite Ep. cbn [rbind]. rewrite (lix_none _ _ Ez). reflexivity. }
  destruct (le_lt_dec (length ttvs) (Nat.min n (Nat.min n' (length zs)))) as [Le|Gt].
  2: { rewrite (imap_err step1 ttvs IndexErr); [reflexivity| |].
    - intros i l Hl. destruct (P1 i l Hl) as [(L1 & L2 & z & Ez & Fz)|(E & _)]; [|right; exact E]. left.
      destruct (step1_fits i l z Hl Ez Fz L1 L2) as (t0 & p & tt & _ & _ & E & _). exists tt. exact E.
    - set (i := Nat.min n (Nat.min n' (length zs))) in *. destruct (nth_error ttvs i) as [l|] eqn:El; [|apply nth_error_None in El; lia].
      exists i, l. split; [exact El|]. destruct (P1 i l El) as [(L1 & L2 & z & Ez & _)|(E & _)]; [|exact E].
      apply nth_error_some_lt in Ez. lia. }
  assert (Gz : (length ttvs < length zs)%nat) by (destruct (le_lt_dec (length zs) (length ttvs)); [exfalso; apply NE; unfold enough; lia|assumption]).
  destruct (imap_total step1 ttvs) as (tt & Ett).
  { intros i l Hl. assert (Hi := nth_error_some_lt _ _ _ Hl). destruct (P1 i l Hl) as [(L1 & L2 & z & Ez & Fz)|(_ & H)]; [|lia].
    destruct (step1_fits i l z Hl Ez Fz L1 L2) as (t0 & p & u & _ & _ & E & _). exists u. exact E. }
  rewrite Ett. cbn [rbind]. apply imap_ok in Ett. destruct Ett as [Lt It].
  rewrite (imap_err (step2 tt) zs IndexErr); [reflexivity| |].
  - intros i z Hz. destruct (le_lt_dec (length ttvs) i) as [L|L].
    + right. unfold step2. destruct (le_lt_dec n' i) as [L2|L2]; [rewrite (proj2 (tix_has _ _ i Hn') L2); reflexivity|].
      destruct (proj1 (tix_has _ _ i Hn') L2) as (t0 & E0). rewrite E0. cbn [rbind].
      destruct (le_lt_dec n i) as [L1|L1]; [rewrite (proj2 (tix_has _ _ i Hn) L1); reflexivity|].
      destruct (proj1 (tix_has _ _ i Hn) L1) as (p & Ep). rewrite Ep. cbn [rbind]. rewrite lix_none by lia. reflexivity.
    + left. destruct (nth_error ttvs i) as [l|] eqn:El; [|apply nth_error_None in El; lia].
      destruct (step1_fits i l z El Hz (F i z l Hz El) ltac:(lia) ltac:(lia)) as (t0 & p & u & E0 & Ep & E & all & Ea & _).
      destruct (It i l El) as (u' & Hu & E'). rewrite E in E'. apply Ok_inj in E'. subst u'. exists all. unfold step2. rewrite E0. cbn [rbind]. rewrite Ep. cbn [rbind].
      rewrite (lix_some _ _ _ Hu). exact Ea.
  - destruct (nth_error zs (length ttvs)) as [z|] eqn:Ez; [|apply nth_error_None in Ez; lia]. exists (length ttvs), z. split; [exact Ez|].
    unfold step2. destruct (le_lt_dec n' (length ttvs)) as [L2|L2]; [rewrite (proj2 (tix_has _ _ _ Hn') L2); reflexivity|].
    destruct (proj1 (tix_has _ _ _ Hn') L2) as (t0 & E0). rewrite E0. cbn [rbind].
    destruct (le_lt_dec n (length ttvs)) as [L1|L1]; [rewrite (proj2 (tix_has _ _ _ Hn) L1); reflexivity|].
    destruct (proj1 (tix_has _ _ _ Hn) L1) as (p & Ep). rewrite Ep. cbn [rbind]. rewrite lix_none by lia. reflexivity.
Qed.

(** with enough entries: all planets fit, or some have an error of one kind *)
Lemma enough_error e : enough -> (forall i z l, nth_error zs i = Some z -> nth_error ttvs i = Some l -> fits_labels z l \/ label_error z l e) ->
  (exists i z l, nth_error zs i = Some z /\ nth_error ttvs i = Some l /\ label_error z l e) ->
  ttv_init k (targs_of (Some ttvs) times inds kw) = Err e.
Proof.
  intros (E1 & E2 & E3) F (i0 & z0 & l0 & Hz0 & Hl0 & Er0). rewrite init_steps.
  assert (P : forall i z l, nth_error zs i = Some z -> nth_error ttvs i = Some l ->
    exists t0 p, tix (o_t0 o) i = Ok t0 /\ tix (o_period o) i = Ok p /\ step1 i l = ttv_labelled t0 p z l).
  { intros i z l Hz Hl. assert (Hi := nth_error_some_lt _ _ _ Hl). destruct (proj1 (tix_has _ _ i Hn') ltac:(lia)) as (t0 & Q0). destruct (proj1 (tix_has _ _ i Hn) ltac:(lia)) as (p & Qp).
    exists t0, p. split; [exact Q0|]. split; [exact Qp|]. unfold step1. rewrite Q0. cbn [rbind]. rewrite Qp. cbn [rbind]. rewrite (lix_some _ _ _ Hz). reflexivity. }
  assert (ZL : forall i l, nth_error ttvs i = Some l -> exists z, nth_error zs i = Some z).
  { intros i l Hl. apply nth_error_some_lt in Hl. destruct (nth_error zs i) as [z|] eqn:Ez; [exists z; reflexivity|apply nth_error_None in Ez; lia]. }
  assert (LZ : forall i z, nth_error zs i = Some z -> exists l, nth_error ttvs i = Some l).
  { intros i l Hl. apply nth_error_some_lt in Hl. destruct (nth_error ttvs i) as [z|] eqn:Ez; [exists z; reflexivity|apply nth_error_None in Ez; lia]. }
  assert (S1 : forall i l, nth_error ttvs i = Some l -> (exists c, step1 i l = Ok c) \/ step1 i l = Err e).
  { intros i l Hl. destruct (ZL i l Hl) as (z & Hz). destruct (P i z l Hz Hl) as (t0 & p & Q0 & Qp & ->). destruct (F i z l Hz Hl) as [G|G].
    - destruct (planet_fits t0 p z l G) as (tt & _ & Et & _). left. exists tt. exact Et.
    - destruct (planet_error t0 p z l e G) as [Et|(tt & Et & _)]; [right; exact Et|left; exists tt; exact Et]. }
  destruct (imap step1 ttvs) as [tt|e'] eqn:Ett.
  2: { cbn [rbind]. destruct (Exists_dec (fun i => match nth_error ttvs i with Some l => step1 i l = Err e | None => False end)
         ) with (l := seq 0 (length ttvs)) as [X|X].
    { intro i. destruct (nth_error ttvs i) as [l|] eqn:El; [|right; tauto]. destruct (step1 i l) as [c|e1] eqn:Es; [right; discriminate|].
      left. destruct (S1 i l El) as [(c & Ec)|Ec]; congruence. }
    { apply Exists_exists in X. destruct X as (i & _ & X). destruct (nth_error ttvs i) as [l|] eqn:El; [|destruct X].
      rewrite (imap_err step1 ttvs e S1) in Ett by (exists i, l; auto). congruence. }
    { exfalso. destruct (imap_total step1 ttvs) as (r & Er); [|congruence]. intros i l Hl. destruct (S1 i l Hl) as [H|H]; [exact H|]. exfalso. apply X.
      apply Exists_exists. exists i. split; [apply in_seq; apply nth_error_some_lt in Hl; lia|]. rewrite Hl. exact H. } }
  cbn [rbind]. apply imap_ok in Ett. destruct Ett as [Lt It].
  assert (S2 : forall i z l, nth_error zs i = Some z -> nth_error ttvs i = Some l ->
     (fits_labels z l -> exists c, step2 tt i z = Ok c) /\ (label_error z l e -> step2 tt i z = Err e)).
  { intros i z l Hz Hl. destruct (P i z l Hz Hl) as (t0 & p & Q0 & Qp & Q1). destruct (It i l Hl) as (u & Hu & Eu). rewrite Q1 in Eu.
    unfold step2. rewrite Q0. cbn [rbind]. rewrite Qp. cbn [rbind]. rewrite (lix_some _ _ _ Hu). cbn [rbind]. split; intro G.
    - destruct (planet_fits t0 p z l G) as (u' & all & Eu' & Ea & _). rewrite Eu in Eu'. apply Ok_inj in Eu'. subst u'. exists all. exact Ea.
    - destruct (planet_error t0 p z l e G) as [Et|(u' & Eu' & Ea)]; [congruence|]. rewrite Eu in Eu'. apply Ok_inj in Eu'. subst u'. exact Ea. }
  rewrite (imap_err (step2 tt) zs e); [reflexivity| |].
  - intros i z Hz. destruct (LZ i z Hz) as (l & Hl). destruct (S2 i z l Hz Hl) as [A1 A2]. destruct (F i z l Hz Hl) as [G|G]; [left; apply A1, G|right; apply A2, G].
  - exists i0, z0. split; [exact Hz0|]. apply (proj2 (S2 i0 z0 l0 Hz0 Hl0) Er0).
Qed.

Lemma accepted : (exists o', ttv_init k (targs_of (Some ttvs) times inds kw) = Ok o') <->
  enough /\ forall i z l, nth_error zs i = Some z -> nth_error ttvs i = Some l -> fits_labels z l.
Proof.
  split.
  - intros (o' & H). assert (H0 := H). destruct (ttvs_init k _ o' ttvs H eq_refl) as (A1 & _ & A3 & A4 & A5 & A6). cbn [ta_inds ta_kw targs_of] in A3, A4. rewrite labels_zarange in A4. fold zs in A4.
    rewrite Ho in A3. apply Ok_inj in A3. destruct (ttv_init_finish k _ o' H) as (F & L1 & L2 & _). rewrite A1, A4 in L1.
    assert (T : forall i l, nth_error ttvs i = Some l -> (i < n)%nat /\ (i < n')%nat).
    { intros i l Hl. destruct (A6 i l Hl) as (z & t0 & p & tt & _ & Q0 & Qp & _). rewrite <- A3 in Q0, Qp. split.
      - destruct (le_lt_dec n i) as [L|L]; [|exact L]. rewrite (proj2 (tix_has _ _ i Hn) L) in Qp. discriminate Qp.
      - destruct (le_lt_dec n' i) as [L|L]; [|exact L]. rewrite (proj2 (tix_has _ _ i Hn') L) in Q0. discriminate Q0. }
    split.
    + unfold enough. split; [congruence|]. destruct (length ttvs) as [|q] eqn:Eq; [lia|].
      destruct (nth_error ttvs q) as [l|] eqn:El; [|apply nth_error_None in El; lia]. destruct (T q l El). lia.
    + intros i z l Hz Hl. destruct (fits_or_error z l) as [G|(e & G)]; [exact G|exfalso].
      destruct (A6 i l Hl) as (z' & t0 & p & tt & Q1 & Q0 & Qp & Q2 & Q3). rewrite A4 in Q1. rewrite Hz in Q1. injection Q1 as <-.
      destruct (finish_ok _ _ _ _ _ _ F) as (_ & _ & _ & _ & _ & _ & _ & A8). rewrite <- A4 in Hz. destruct (A8 i z Hz) as (t0' & p' & tt' & all & bin & R0 & Rp & R2 & R3 & _).
      rewrite Q0 in R0. rewrite Qp in Rp. rewrite Q2 in R2. apply Ok_inj in R0. apply Ok_inj in Rp. injection R2 as <-. subst t0' p'.
      destruct (planet_error t0 p z l e G) as [Et|(u & Eu & Ea)]; [congruence|]. rewrite Q3 in Eu. apply Ok_inj in Eu. subst u. congruence.
  - intros [(E1 & E2 & E3) F]. rewrite init_steps.
    assert (ZL : forall i l, nth_error ttvs i = Some l -> exists z, nth_error zs i = Some z).
    { intros i l Hl. apply nth_error_some_lt in Hl. destruct (nth_error zs i) as [z|] eqn:Ez; [exists z; reflexivity|apply nth_error_None in Ez; lia]. }
    destruct (imap_total step1 ttvs) as (tt & Ett).
    { intros i l Hl. destruct (ZL i l Hl) as (z & Hz). assert (Hi := nth_error_some_lt _ _ _ Hl).
      destruct (step1_fits i l z Hl Hz (F i z l Hz Hl) ltac:(lia) ltac:(lia)) as (t0 & p & u & _ & _ & E & _). exists u. exact E. }
    rewrite Ett. cbn [rbind]. apply imap_ok in Ett. destruct Ett as [Lt It].
    assert (S2 : forall i z, nth_error zs i = Some z -> exists c, step2 tt i z = Ok c /\ c <> []).
    { intros i z Hz. assert (Hi := nth_error_some_lt _ _ _ Hz). destruct (nth_error ttvs i) as [l|] eqn:El; [|apply nth_error_None in El; lia].
      destruct (step1_fits i l z El Hz (F i z l Hz El) ltac:(lia) ltac:(lia)) as (t0 & p & u & E0 & Ep & E & all & Ea & Na).
      destruct (It i l El) as (u' & Hu & E'). rewrite E in E'. apply Ok_inj in E'. subst u'. exists all. split; [|exact Na]. unfold step2. rewrite E0. cbn [rbind]. rewrite Ep. cbn [rbind].
      rewrite (lix_some _ _ _ Hu). exact Ea. }
    destruct (imap_total (step2 tt) zs) as (all & Eall); [intros i z Hz; destruct (S2 i z Hz) as (c & Ec & _); exists c; exact Ec|].
    rewrite Eall. cbn [rbind]. assert (Ga := Eall). apply imap_ok in Ga. destruct Ga as [La Ia].
    destruct (imap_total step3 all) as (bins & Eb).
    { intros i tts Ht. assert (Hi := nth_error_some_lt _ _ _ Ht). destruct (proj1 (tix_has _ _ i Hn) ltac:(lia)) as (p & Qp). unfold step3. rewrite Qp. cbn [rbind].
      destruct (nth_error zs i) as [z|] eqn:Ez; [|apply nth_error_None in Ez; lia]. destruct (Ia i z Ez) as (c & Hc & Ec). rewrite Ht in Hc. injection Hc as <-.
      destruct (S2 i z Ez) as (c & Ec' & Nc). rewrite Ec in Ec'. apply Ok_inj in Ec'. subst c. destruct tts as [|a tts]; [congruence|]. eexists. reflexivity. }
    rewrite Eb. cbn [rbind]. eexists. reflexivity.
Qed.
End A.
