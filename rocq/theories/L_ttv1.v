(** * TTVOrbit: lists and regression *)
From Coq Require Import Reals List Bool Arith ZArith Lra Lia Psatz Sorted.
From Verif Require Import Num CoreOps Inst M_units M_kepler M_kwargs M_fin M_tensor M_ttv Spec_orbit Spec_params Spec_array Spec_ttv L_fl L_params3.
Import ListNotations.
Open Scope R_scope.

Lemma lmap2_len {A C D} (f : A -> C -> D) a b : length a = length b ->
  lmap2 f a b = Ok (map (fun p => f (fst p) (snd p)) (combine a b)).
Proof. intro H. unfold lmap2. rewrite H, Nat.eqb_refl. reflexivity. Qed.

Lemma rlist_ok {A} (l : list (res A)) r : rlist l = Ok r -> l = map Ok r.
Proof.
  revert r. induction l as [|x l IH]; intros r H; cbn in H.
  - apply Ok_inj in H. subst. reflexivity.
  - destruct x as [a|]; [|discriminate H]. cbn [rbind] in H. destruct (rlist l) as [r'|]; [|discriminate H].
    cbn [rbind] in H. apply Ok_inj in H. subst. cbn. f_equal. apply IH. reflexivity.
Qed.
Lemma rlist_map {A} (r : list A) : rlist (map Ok r) = Ok r.
Proof. induction r as [|a r IH]; [reflexivity|]. cbn. rewrite IH. reflexivity. Qed.
Lemma combine_nth_error {A} (l : list A) s i : nth_error (combine (seq s (length l)) l) i = option_map (fun v => ((s + i)%nat, v)) (nth_error l i).
Proof.
  revert s i. induction l as [|x l IH]; intros s i; [destruct i; reflexivity|]. destruct i as [|i]; cbn.
  - f_equal. f_equal. lia.
  - rewrite IH. destruct (nth_error l i); cbn; [|reflexivity]. f_equal. f_equal. lia.
Qed.
Lemma imap_ok {A C} (f : nat -> A -> res C) l r : imap f l = Ok r ->
  length r = length l /\ forall i a, nth_error l i = Some a -> exists c, nth_error r i = Some c /\ f i a = Ok c.
Proof.
  intro H. unfold imap in H. apply rlist_ok in H. split.
  - assert (E := f_equal (@length _) H). rewrite !map_length, combine_length, seq_length in E. lia.
  - intros i a Hi. assert (E := f_equal (fun l => nth_error l i) H). cbn beta in E.
    rewrite !nth_error_map, combine_nth_error, Hi in E. cbn in E. destruct (nth_error r i) as [c|]; [|discriminate E].
    exists c. split; [reflexivity|]. cbn in E. congruence.
Qed.
Lemma combine_map_seq {A} s (l : list A) (d : A) : combine (seq s (length l)) l = map (fun i => ((s + i)%nat, nth i l d)) (seq 0 (length l)).
Proof.
  revert s. induction l as [|a l IH]; intro s; [reflexivity|]. cbn [length seq combine map]. f_equal; [f_equal; lia|].
  rewrite IH, <- seq_shift, map_map. apply map_ext. intro i. cbn. f_equal. lia.
Qed.
Lemma imap_intro {A C} (f : nat -> A -> res C) l r : length r = length l ->
  (forall i a c, nth_error l i = Some a -> nth_error r i = Some c -> f i a = Ok c) -> imap f l = Ok r.
Proof.
  intros HL H. unfold imap. rewrite <- (rlist_map r). f_equal. revert r HL H.
  enough (G : forall s r, length r = length l -> (forall i a c, nth_error l i = Some a -> nth_error r i = Some c -> f (s + i)%nat a = Ok c) ->
    map (fun p => f (fst p) (snd p)) (combine (seq s (length l)) l) = map Ok r) by (intros r HL H; apply (G 0%nat r HL H)).
  induction l as [|a l IH]; intros s [|c r] HL H; try discriminate HL; [reflexivity|]. cbn. f_equal.
  - assert (E := H 0%nat a c eq_refl eq_refl). rewrite Nat.add_0_r in E. exact E.
  - apply IH; [cbn in HL; lia|]. intros i a' c' H1 H2. assert (E := H (S i) a' c' H1 H2). rewrite Nat.add_succ_r in E. exact E.
Qed.

(** ** Regression over the reals *)
Fixpoint ps (f : R -> R -> R) (inds : list Z) (y : list R) : R :=
  match inds, y with i :: inds, v :: y => f (IZR i) v + ps f inds y | _, _ => 0 end.
Lemma ps_ext f g inds y : (forall a b, f a b = g a b) -> ps f inds y = ps g inds y.
Proof. intro H. revert y. induction inds as [|i inds IH]; intros [|v y]; cbn; [reflexivity|reflexivity|reflexivity|]. rewrite H, IH. reflexivity. Qed.
Section P.
Variables (inds : list Z) (ys : list R).
Hypothesis HL : length inds = length ys.
Notation S1 := (ps (fun _ _ => 1) inds ys). Notation Sx := (ps (fun x _ => x) inds ys). Notation Sxx := (ps (fun x _ => x * x) inds ys).
Notation Sy := (ps (fun _ y => y) inds ys). Notation Sxy := (ps (fun x y => x * y) inds ys). Notation Syy := (ps (fun _ y => y * y) inds ys).

Lemma ps_quad A B C D E F :
  ps (fun x y => A + B * x + C * (x * x) + D * y + E * (x * y) + F * (y * y)) inds ys = A * S1 + B * Sx + C * Sxx + D * Sy + E * Sxy + F * Syy.
Proof.
  clear HL. revert ys. induction inds as [|i l IH]; intros [|v y]; cbn; try ring. rewrite IH. ring.
Qed.
Lemma sse_ps a b : sse inds ys a b = Syy - 2 * a * Sy - 2 * b * Sxy + a * a * S1 + 2 * a * b * Sx + b * b * Sxx.
Proof.
  transitivity (ps (fun x y => (y - (a + b * x)) * (y - (a + b * x))) inds ys).
  { clear HL. revert ys. induction inds as [|i l IH]; intros [|v y]; cbn; try reflexivity. rewrite IH. reflexivity. }
  rewrite (ps_ext _ (fun x y => a * a + (2 * a * b) * x + (b * b) * (x * x) + (- 2 * a) * y + (- 2 * b) * (x * y) + 1 * (y * y))) by (intros; ring).
  rewrite ps_quad. ring.
Qed.
Lemma res_sum a b : rsum (residuals inds ys a b) = Sy - a * S1 - b * Sx.
Proof. clear HL. revert ys. induction inds as [|i l IH]; intros [|v y]; cbn; try ring. unfold rsum in IH. rewrite IH. ring. Qed.
Lemma res_dot a b : rdot inds (residuals inds ys a b) = Sxy - a * Sx - b * Sxx.
Proof. clear HL. revert ys. induction inds as [|i l IH]; intros [|v y]; cbn; try ring. rewrite IH. ring. Qed.
Lemma S1_len : S1 = INR (length ys).
Proof.
  revert ys HL. induction inds as [|i l IH]; intros [|v y] H; try discriminate H; [reflexivity|].
  cbn [ps]. rewrite IH by (cbn in H; lia). cbn [length]. rewrite S_INR. ring.
Qed.
Lemma ps_sq_nonneg f : 0 <= ps (fun x y => f x * f x) inds ys.
Proof. clear HL. revert ys. induction inds as [|i l IH]; intros [|v y]; cbn; try lra. specialize (IH y). nra. Qed.
Lemma ps_sq_pos f i : In i inds -> f (IZR i) <> 0 -> 0 < ps (fun x y => f x * f x) inds ys.
Proof.
  revert ys HL. induction inds as [|i' l IH]; intros [|v y] H; try discriminate H; [intros []|].
  intros [E|Hin] Hf; cbn.
  - subst i'. assert (Q : 0 <= ps (fun x _ => f x * f x) l y).
    { clear. revert y. induction l as [|i l IH]; intros [|v y]; cbn; try lra. specialize (IH y). nra. }
    assert (0 < f (IZR i) * f (IZR i)) by nra. lra.
  - specialize (IH y ltac:(cbn in H; lia) Hin Hf). nra.
Qed.

Hypothesis two : exists p q, In p inds /\ In q inds /\ p <> q.
Lemma S1_pos : 0 < S1.
Proof. rewrite S1_len. destruct two as (p & _ & Hp & _). apply lt_0_INR. rewrite <- HL. destruct inds; [destruct Hp|cbn; lia]. Qed.
Lemma denom_pos : 0 < S1 * Sxx - Sx * Sx.
Proof.
  assert (N := S1_pos). set (m := Sx / S1).
  assert (E : ps (fun x y => (x - m) * (x - m)) inds ys = Sxx - Sx * Sx / S1).
  { rewrite (ps_ext _ (fun x y => (m * m) + (- 2 * m) * x + 1 * (x * x) + 0 * y + 0 * (x * y) + 0 * (y * y))) by (intros; ring).
    rewrite ps_quad. unfold m. field. lra. }
  assert (P : 0 < ps (fun x y => (x - m) * (x - m)) inds ys).
  { destruct two as (p & q & Hp & Hq & Hn). destruct (Req_EM_T (IZR p) m) as [Ep|Ep].
    - apply (ps_sq_pos (fun x => x - m) q Hq). intro Eq. apply Hn. apply eq_IZR. lra.
    - apply (ps_sq_pos (fun x => x - m) p Hp). lra. }
  rewrite E in P. assert (0 < S1 * (Sxx - Sx * Sx / S1)) by (apply Rmult_lt_0_compat; lra).
  replace (S1 * (Sxx - Sx * Sx / S1)) with (S1 * Sxx - Sx * Sx) in H by (field; lra). exact H.
Qed.
Definition fit_b := (S1 * Sxy - Sx * Sy) / (S1 * Sxx - Sx * Sx).
Definition fit_a := (Sxx * Sy - Sx * Sxy) / (S1 * Sxx - Sx * Sx).
Lemma normal1 : Sy = fit_a * S1 + fit_b * Sx.
Proof. assert (D := denom_pos). unfold fit_a, fit_b. field. lra. Qed.
Lemma normal2 : Sxy = fit_a * Sx + fit_b * Sxx.
Proof. assert (D := denom_pos). unfold fit_a, fit_b. field. lra. Qed.
Lemma fit_min : forall a b, sse inds ys fit_a fit_b <= sse inds ys a b /\
  (sse inds ys a b = sse inds ys fit_a fit_b -> a = fit_a /\ b = fit_b).
Proof.
  intros a b. assert (D := denom_pos). assert (N := S1_pos).
  assert (E : S1 * (sse inds ys a b - sse inds ys fit_a fit_b)
    = (S1 * (a - fit_a) + (b - fit_b) * Sx) * (S1 * (a - fit_a) + (b - fit_b) * Sx) + (b - fit_b) * (b - fit_b) * (S1 * Sxx - Sx * Sx)).
  { rewrite !sse_ps. rewrite normal1, normal2. ring. }
  set (u := S1 * (a - fit_a) + (b - fit_b) * Sx) in *. set (d := b - fit_b) in *.
  assert (0 <= u * u) by nra. assert (0 <= d * d * (S1 * Sxx - Sx * Sx)) by (apply Rmult_le_pos; [nra|lra]).
  split; [nra|]. intro Q. rewrite Q in E. replace (S1 * (sse inds ys fit_a fit_b - sse inds ys fit_a fit_b)) with 0 in E by ring.
  assert (U : u * u = 0) by lra. assert (V : d * d * (S1 * Sxx - Sx * Sx) = 0) by lra.
  assert (Dz : d = 0). { apply Rmult_integral in V. destruct V as [V|V]; [apply Rmult_integral in V; tauto|lra]. }
  assert (Uz : u = 0) by (apply Rmult_integral in U; tauto).
  assert (Hb : b = fit_b) by (unfold d in Dz; lra). split; [|exact Hb].
  unfold u in Uz. rewrite Dz in Uz. rewrite Rmult_0_l, Rplus_0_r in Uz. apply Rmult_integral in Uz. destruct Uz; lra.
Qed.
Lemma fit_res : rsum (residuals inds ys fit_a fit_b) = 0 /\ rdot inds (residuals inds ys fit_a fit_b) = 0.
Proof. rewrite res_sum, res_dot. split; [rewrite normal1|rewrite normal2]; ring. Qed.
End P.

(** all transit numbers equal *)
Lemma ps_const (z : Z) inds ys : length inds = length ys -> (forall i, In i inds -> i = z) ->
  ps (fun x _ => x) inds ys = IZR z * ps (fun _ _ => 1) inds ys /\ ps (fun x _ => x * x) inds ys = IZR z * IZR z * ps (fun _ _ => 1) inds ys /\
  ps (fun x y => x * y) inds ys = IZR z * ps (fun _ y => y) inds ys.
Proof.
  revert ys. induction inds as [|i l IH]; intros [|v y] H Hz; try discriminate H; cbn; [split; [ring|split; ring]|].
  destruct (IH y) as (E1 & E2 & E3); [cbn in H; lia|intros; apply Hz; right; assumption|].
  rewrite E1, E2, E3, (Hz i (or_introl eq_refl)). split; [ring|split; ring].
Qed.

(** ** The machine-number regression *)
Lemma nsum_fin l : nsum (map Fin l) = Fin (rsum l).
Proof. induction l as [|x l IH]; [reflexivity|]. cbn in *. change (fold_right fadd (Fin 0) (map Fin l)) with (nsum (map Fin l)). rewrite IH. reflexivity. Qed.
Lemma combine_fin a b : combine (map Fin a) (map Fin b) = map (fun p => (Fin (fst p), Fin (snd p))) (combine a b).
Proof. revert b. induction a as [|x a IH]; intros [|y b]; cbn; try reflexivity. rewrite IH. reflexivity. Qed.
Section F.
Variables (inds : list Z) (ys : list R).
Hypothesis HL : length inds = length ys.
Let X := map IZR inds.
Lemma sum_x : rsum X = ps (fun x _ => x) inds ys.
Proof. unfold X. revert ys HL. induction inds as [|i l IH]; intros [|v y] H; try discriminate H; [reflexivity|]. cbn in *. unfold rsum in IH. rewrite (IH y) by lia. reflexivity. Qed.
Lemma sum_xx : rsum (map (fun v => v * v) X) = ps (fun x _ => x * x) inds ys.
Proof. unfold X. revert ys HL. induction inds as [|i l IH]; intros [|v y] H; try discriminate H; [reflexivity|]. cbn in *. unfold rsum in IH. rewrite (IH y) by lia. reflexivity. Qed.
Lemma sum_y : rsum ys = ps (fun _ y => y) inds ys.
Proof. revert ys HL. induction inds as [|i l IH]; intros [|v y] H; try discriminate H; [reflexivity|]. cbn in *. unfold rsum in IH. rewrite (IH y) by lia. reflexivity. Qed.
Lemma sum_xy : rsum (map (fun p => fst p * snd p) (combine X ys)) = ps (fun x y => x * y) inds ys.
Proof. unfold X. revert ys HL. induction inds as [|i l IH]; intros [|v y] H; try discriminate H; [reflexivity|]. cbn in *. unfold rsum in IH. rewrite (IH y) by lia. reflexivity. Qed.
Lemma res_fin a b : map (fun p => fsub (fst p) (snd p)) (combine (map Fin ys) (map (fun v => fadd (Fin a) (fmul v (Fin b))) (map Fin X))) = map Fin (residuals inds ys a b).
Proof.
  unfold X. revert ys HL. induction inds as [|i l IH]; intros [|v y] H; try discriminate H; [reflexivity|]. cbn in *. rewrite (IH y) by lia.
  f_equal. f_equal. ring.
Qed.

Lemma fit_fin_gen : ttv_fit inds (map Fin ys) =
  let D := Fin (ps (fun _ _ => 1) inds ys * ps (fun x _ => x * x) inds ys - ps (fun x _ => x) inds ys * ps (fun x _ => x) inds ys) in
  let s := fdiv (Fin (ps (fun _ _ => 1) inds ys * ps (fun x y => x * y) inds ys - ps (fun x _ => x) inds ys * ps (fun _ y => y) inds ys)) D in
  let c := fdiv (Fin (ps (fun x _ => x * x) inds ys * ps (fun _ y => y) inds ys - ps (fun x _ => x) inds ys * ps (fun x y => x * y) inds ys)) D in
  Ok (s, c, map (fun p => fsub (fst p) (snd p)) (combine (map Fin ys) (map (fun v => fadd c (fmul v s)) (map Fin X)))).
Proof.
  unfold ttv_fit.
  assert (EX : map (fun z => nlit (IZR z)) inds = map Fin X) by (unfold X; rewrite map_map; reflexivity). rewrite EX. clear EX.
  assert (LX : length (map Fin X) = length (map Fin ys)) by (unfold X; rewrite !map_length; exact HL).
  rewrite (lmap2_len _ _ _ LX). cbn [rbind]. rewrite combine_fin.
  rewrite lmap2_len by (rewrite !map_length; unfold X; rewrite map_length; symmetry; exact HL). cbn [rbind].
  assert (E1 : nsum (map Fin X) = Fin (ps (fun x _ => x) inds ys)) by (rewrite nsum_fin, sum_x; reflexivity).
  assert (E2 : nsum (map (fun v => npw v 2) (map Fin X)) = Fin (ps (fun x _ => x * x) inds ys)).
  { rewrite <- sum_xx, <- nsum_fin, !map_map. reflexivity. }
  assert (E3 : nsum (map Fin ys) = Fin (ps (fun _ y => y) inds ys)) by (rewrite nsum_fin, sum_y; reflexivity).
  assert (E4 : nsum (map (fun p => nmul (fst p) (snd p)) (map (fun p => (Fin (fst p), Fin (snd p))) (combine X ys))) = Fin (ps (fun x y => x * y) inds ys)).
  { rewrite <- sum_xy, <- nsum_fin, !map_map. reflexivity. }
  rewrite E1, E2, E3, E4, map_length, <- (S1_len inds ys HL). reflexivity.
Qed.

Lemma fit_fin : (exists p q, In p inds /\ In q inds /\ p <> q) ->
  ttv_fit inds (map Fin ys) = Ok (Fin (fit_b inds ys), Fin (fit_a inds ys), map Fin (residuals inds ys (fit_a inds ys) (fit_b inds ys))).
Proof.
  intro two. assert (D := denom_pos inds ys HL two). rewrite fit_fin_gen. cbv zeta. rewrite !fdiv_fin by lra.
  rewrite <- res_fin. reflexivity.
Qed.
Lemma fit_nan : ys <> [] -> (exists z, forall i, In i inds -> i = z) ->
  ttv_fit inds (map Fin ys) = Ok (NaN, NaN, map (fun _ => NaN) ys).
Proof.
  intros Hne (z & Hz). destruct (ps_const z inds ys HL Hz) as (E1 & E2 & E3). rewrite fit_fin_gen. cbv zeta.
  rewrite E1, E2, E3. set (s := ps (fun _ _ => 1) inds ys). set (y := ps (fun _ y => y) inds ys).
  assert (Q : forall a b, a = 0 -> b = 0 -> fdiv (Fin a) (Fin b) = NaN).
  { intros a b -> ->. cbn. rewrite (Reqb_true 0 0) by reflexivity. reflexivity. }
  rewrite !Q by ring. f_equal. f_equal. unfold X. clear - HL.
  revert ys HL. induction inds as [|i l IH]; intros [|v y'] H; try discriminate H; [reflexivity|]. cbn in *. rewrite IH by lia. reflexivity.
Qed.
End F.
