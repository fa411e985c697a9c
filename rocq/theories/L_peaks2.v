(** * find_peaks *)
From Coq Require Import Reals List Bool Arith ZArith Lia Lra Permutation Sorted.
From Verif Require Import Num CoreOps Inst CoreLin L_lin M_ttv M_peaks Spec_peaks L_fl L_ecc2 L_peaks1 Ex_peaks.
Import ListNotations.
Open Scope R_scope.

Lemma mono_three fs i : strictly_monotone fs -> (1 <= i)%nat -> (i + 1 < length fs)%nat ->
  (nth (i - 1) fs 0 < nth i fs 0 < nth (i + 1) fs 0 \/ nth (i + 1) fs 0 < nth i fs 0 < nth (i - 1) fs 0).
Proof.
  assert (G : forall R fs i j, StronglySorted R fs -> (i < j < length fs)%nat -> R (nth i fs 0) (nth j fs 0)).
  { clear. intros R fs i j S. revert i j. induction S as [|a l S IH F]; intros i j H; [cbn in H; lia|]. destruct j as [|j]; [lia|]. destruct i as [|i].
    - cbn [nth]. rewrite Forall_forall in F. apply F. apply nth_In. cbn in H. lia.
    - cbn [nth]. apply IH. cbn in H. lia. }
  intros [S|S] H1 H2; [left|right]; (split; [|]).
  - apply (G Rlt fs (i - 1)%nat i S). lia.
  - apply (G Rlt fs i (i + 1)%nat S). lia.
  - apply (G Rgt fs i (i + 1)%nat S). lia.
  - apply (G Rgt fs (i - 1)%nat i S). lia.
Qed.
Lemma flog_nonfin p : ~ 0 < p -> match flog (Fin p) with Fin _ => False | _ => True end.
Proof. intro H. cbn. unfold Rltb. destruct (Rlt_dec 0 p); [contradiction|]. destruct (Reqb p 0); exact I. Qed.
Lemma fit_ok fs ps i : length fs = length ps -> strictly_monotone fs -> List.Forall (fun f => 0 <= f) fs -> strict_peak ps i ->
  exists p, fit_peak fs (map Fin ps) i = Ok p /\ describes fs ps i p.
Proof.
  intros L M PF (H1 & H2 & P1 & P2). assert (M3 := mono_three fs i M H1 ltac:(lia)).
  assert (F1 : 0 <= nth (i - 1) fs 0) by (rewrite Forall_forall in PF; apply PF, nth_In; lia).
  assert (F2 : 0 <= nth i fs 0) by (rewrite Forall_forall in PF; apply PF, nth_In; lia).
  assert (F3 : 0 <= nth (i + 1) fs 0) by (rewrite Forall_forall in PF; apply PF, nth_In; lia).
  unfold fit_peak. rewrite (three fs 0 i) by lia. rewrite (three (map Fin ps) NaN i) by (rewrite ?map_length; lia).
  change (nth (i - 1) (map Fin ps) NaN) with (fth (i - 1) (map Fin ps)). change (nth i (map Fin ps) NaN) with (fth i (map Fin ps)). change (nth (i + 1) (map Fin ps) NaN) with (fth (i + 1) (map Fin ps)).
  rewrite !fth_fin by lia.
  fold (vander [nth (i - 1) fs 0; nth i fs 0; nth (i + 1) fs 0]).
  set (f1 := nth (i - 1) fs 0) in *. set (f2 := nth i fs 0) in *. set (f3 := nth (i + 1) fs 0) in *.
  set (p1 := nth (i - 1) ps 0) in *. set (p2 := nth i ps 0) in *. set (p3 := nth (i + 1) ps 0) in *.
  unfold linsolve_fl. cbn [map]. set (l := [match flog (Fin p1) with Fin r => r | _ => 0 end; _; _]).
  destruct (vander_solve f1 f2 f3 l eq_refl) as (a & b & c & E & EL); try lra.
 rewrite E. cbn [rbind]. unfold l in EL. assert (E1 := f_equal (fun l => nth 0 l 0) EL). assert (E2 := f_equal (fun l => nth 1 l 0) EL). assert (E3 := f_equal (fun l => nth 2 l 0) EL). cbn [nth] in E1, E2, E3. eexists. split; [reflexivity|].
  split; [reflexivity|]. fold p1 p2 p3. split.
  - intros (Q1 & Q2 & Q3). rewrite (flog_pos p1 Q1), (flog_pos p2 Q2), (flog_pos p3 Q3). rewrite (flog_pos p1 Q1) in E1. rewrite (flog_pos p2 Q2) in E2. rewrite (flog_pos p3 Q3) in E3. cbv iota in E1, E2, E3. cbn [forallb andb map].
    destruct (parabola_shape f1 f2 f3 a b c (ln p1) (ln p2) (ln p3) M3) as [A B]; [lra|lra|lra|apply ln_increasing; assumption|apply ln_increasing; assumption|].
    set (v := - b / (2 * a)) in *. assert (V : 0 < v). { destruct B as [B _]. assert (0 < Rmin (f1 + f2) (f2 + f3)) by (apply Rmin_glb_lt; lra). lra. }
    exists a, b, c. split; [exact A|]. split.
    { intros j Hj. assert (j = (i - 1)%nat \/ j = i \/ j = (i + 1)%nat) as [->|[->| ->]] by lia; [fold f1 p1|fold f2 p2|fold f3 p3]; lra. }
    cbv zeta. fold f1 f2 f3 v p2. split; [exact B|]. split; [exact V|]. cbn [fth nth].
    assert (S2 : fdiv (Fin (-0.5)) (Fin a) = Fin (-0.5 / a)) by (apply fdiv_fin; lra). rewrite S2. cbn [fmul].
    assert (S3 : b * (-0.5 / a) = v) by (unfold v; replace (-0.5) with (-(1/2)) by lra; field; lra). rewrite S3.
    assert (NS : -0.5 / a <> 0). { assert (0 < -0.5 / a); [|lra]. replace (-0.5 / a) with ((1/2) / (- a)) by (replace (-0.5) with (-(1/2)) by lra; field; lra). apply Rdiv_lt_0_compat; lra. }
    rewrite !fdiv_fin by (try exact NS; try lra; assert (0 < v * v) by (apply Rmult_lt_0_compat; exact V); nra).
    split; [reflexivity|]. cbn [fadd]. assert (EV : b = - 2 * a * v) by (unfold v; field; lra).
    assert (LP : c + 0.5 * (v * v) / (-0.5 / a) = a * v ^ 2 + b * v + c). { rewrite EV. replace 0.5 with (1/2) by lra. replace (-0.5) with (-(1/2)) by lra. field. lra. }
    split; [rewrite LP; reflexivity|]. split.
    { rewrite E2. rewrite EV. assert (0 <= - a * ((f2 - v) * (f2 - v))) by (apply Rmult_le_pos; [lra|apply Rle_0_sqr]). lra. }
    assert (NN : 0 <= -0.5 / a / (v * v * (v * v))).
    { replace (-0.5 / a) with ((1/2) / (- a)) by (replace (-0.5) with (-(1/2)) by lra; field; lra). assert (0 < v * v) by (apply Rmult_lt_0_compat; exact V). assert (0 < v * v * (v * v)) by (apply Rmult_lt_0_compat; assumption).
      apply Rlt_le. apply Rdiv_lt_0_compat; [|assumption]. apply Rdiv_lt_0_compat; lra. }
    cbn [pk_period_uncert]. refine (eq_trans (fsqrt_fin _ NN) _). apply f_equal. apply f_equal. replace (-0.5) with (-(1/2)) by lra. field. split; lra.
  - intro NQ. assert (FB : forallb (fun z => match z with Fin _ => true | _ => false end) [flog (Fin p1); flog (Fin p2); flog (Fin p3)] = false).
    { destruct (Rlt_dec 0 p1) as [Q1|Q1]; [|assert (G := flog_nonfin p1 Q1); cbn [forallb]; destruct (flog (Fin p1)); [contradiction|reflexivity|reflexivity]].
      destruct (Rlt_dec 0 p3) as [Q3|Q3]; [|assert (G := flog_nonfin p3 Q3); cbn [forallb]; destruct (flog (Fin p3)); [contradiction|rewrite !andb_false_r; reflexivity|rewrite !andb_false_r; reflexivity]].
      exfalso. apply NQ. repeat split; try assumption. lra. }
    rewrite FB. cbn [map fth nth]. unfold no_fit. repeat split; reflexivity.
Qed.
Lemma rlist_all {A C} (f : A -> res C) (Q : A -> C -> Prop) l : (forall a, In a l -> exists c, f a = Ok c /\ Q a c) -> exists cs, rlist (map f l) = Ok cs /\ Forall2 Q l cs.
Proof.
  induction l as [|a l IH]; intro H; [exists []; split; [reflexivity|constructor]|]. destruct (H a (or_introl eq_refl)) as (c & E & q). destruct IH as (cs & E2 & F); [intros; apply H; right; assumption|].
  exists (c :: cs). cbn. rewrite E. cbn. rewrite E2. split; [reflexivity|]. constructor; assumption.
Qed.
Theorem find_peaks_law : forall argsort fs ps (mp : Z), sorts argsort -> length fs = length ps -> strictly_monotone fs -> List.Forall (fun f => 0 <= f) fs ->
  exists is pks, chosen ps (Z.to_nat (Z.max 1 mp)) is /\ Forall2 (describes fs ps) is pks /\
    find_peaks argsort fs (map Fin ps) mp =
      if Z.eqb mp 0 then match pks with [] => Err ValueError | p :: _ => Ok (OnePeak p) end else Ok (PeakList pks).
Proof.
  intros argsort fs ps mp S L M PF. assert (C := chosen_prefix argsort ps (Z.to_nat (Z.max 1 mp)) S). set (is := firstn _ _) in C.
  destruct (rlist_all (fit_peak fs (map Fin ps)) (describes fs ps) is) as (pks & E & F).
  { intros i I. apply fit_ok; try assumption. apply (ch_peaks _ _ _ C). exact I. }
  exists is, pks. split; [exact C|]. split; [exact F|]. unfold find_peaks. fold (ordered argsort (map Fin ps)). fold is. rewrite E. cbn [rbind]. destruct (Z.eqb mp 0); reflexivity.
Qed.
Theorem find_peaks_none : forall argsort fs ps (mp : Z), sorts argsort -> length fs = length ps -> strictly_monotone fs -> List.Forall (fun f => 0 <= f) fs ->
  (find_peaks argsort fs (map Fin ps) mp = Err ValueError <-> mp = 0%Z /\ forall i, ~ strict_peak ps i) /\
  (forall e, find_peaks argsort fs (map Fin ps) mp = Err e -> e = ValueError).
Proof.
  intros argsort fs ps mp S L M PF. destruct (find_peaks_law argsort fs ps mp S L M PF) as (is & pks & C & F & E). rewrite E. split; [split|].
  - destruct (Z.eqb mp 0) eqn:Z0; [|discriminate]. apply Z.eqb_eq in Z0. destruct pks as [|p pks]; [|discriminate]. intros _. split; [exact Z0|]. inversion F; subst.
    intros i Hi. destruct (ch_rest _ _ _ C i Hi) as [Q _]; [intros []|]. cbn in Q. discriminate.
  - intros [-> N]. cbn [Z.eqb]. destruct F as [|i p is' pks' D F]; [reflexivity|]. exfalso. apply (N i). apply (ch_peaks _ _ _ C). left. reflexivity.
  - intros e. destruct (Z.eqb mp 0); [|discriminate]. destruct pks; [|discriminate]. congruence.
Qed.
Theorem find_peaks_index : forall argsort fs ps mp pks, sorts argsort -> length fs = length ps -> strictly_monotone fs -> List.Forall (fun f => 0 <= f) fs ->
  find_peaks argsort fs (map Fin ps) mp = Ok (PeakList pks) ->
  forall p, In p pks -> strict_peak ps (pk_index p - 1) /\ ~ strict_peak ps (pk_index p).
Proof.
  intros argsort fs ps mp pks S L M PF E p I. destruct (find_peaks_law argsort fs ps mp S L M PF) as (is & pks' & C & F & E'). rewrite E' in E.
  assert (EQ : pks' = pks). { destruct (Z.eqb mp 0); [destruct pks'; discriminate|]. congruence. } subst pks'.
  assert (G : exists i, strict_peak ps i /\ pk_index p = (i + 1)%nat).
  { assert (CP := ch_peaks _ _ _ C). clear - F I CP. induction F as [|i q is pks D F IH]; [contradiction|]. destruct I as [->|I].
    - exists i. split; [apply CP; left; reflexivity|]. exact (proj1 D).
    - apply IH; [exact I|]. intros j J. apply CP. right. exact J. }
  destruct G as (i & SP & EI). rewrite EI. replace (i + 1 - 1)%nat with i by lia. split; [exact SP|].
  intros (_ & _ & Q & _). destruct SP as (_ & _ & _ & Q'). replace (i + 1 - 1)%nat with i in Q by lia. lra.
Qed.
Theorem find_peaks_index_wrong : ~ (forall argsort fs ps mp pks, sorts argsort -> length fs = length ps -> strictly_monotone fs -> List.Forall (fun f => 0 <= f) fs ->
  find_peaks argsort fs (map Fin ps) mp = Ok (PeakList pks) -> forall p, In p pks -> strict_peak ps (pk_index p)).
Proof.
  intro H. destruct (find_peaks_law isort ex_f ex_p 2 isort_sorts eq_refl ex_f_mono ex_f_pos) as (is & pks & C & F & E). cbn [Z.eqb] in E.
  destruct F as [|i p is pks D F].
  - destruct (ch_rest _ _ _ C 1%nat ex_peak1) as [Q _]; [intros []|]. discriminate Q.
  - destruct (find_peaks_index isort ex_f ex_p 2 _ isort_sorts eq_refl ex_f_mono ex_f_pos E p (or_introl eq_refl)) as [_ N]. apply N.
    exact (H isort ex_f ex_p 2%Z _ isort_sorts eq_refl ex_f_mono ex_f_pos E p (or_introl eq_refl)).
Qed.
