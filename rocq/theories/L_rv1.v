(** * Weighted least squares *)
From Coq Require Import Reals List Bool Arith Lia Lra.
From Verif Require Import Num CoreLin L_lin M_units M_ttv M_rv.
Import ListNotations.
Open Scope R_scope.

Fixpoint sumf {A} (f : A -> R) (l : list A) : R := match l with [] => 0 | a :: l => f a + sumf f l end.
Lemma sumf_ext {A} (f g : A -> R) l : (forall a, In a l -> f a = g a) -> sumf f l = sumf g l.
Proof. induction l as [|a l IH]; intro H; [reflexivity|]. cbn. rewrite (H a (or_introl eq_refl)), IH; [reflexivity|]. intros; apply H; right; assumption. Qed.
Lemma sumf_plus {A} (f g : A -> R) l : sumf (fun a => f a + g a) l = sumf f l + sumf g l.
Proof. induction l as [|a l IH]; cbn; [ring|]. rewrite IH. ring. Qed.
Lemma sumf_scal {A} c (f : A -> R) l : sumf (fun a => c * f a) l = c * sumf f l.
Proof. induction l as [|a l IH]; cbn; [ring|]. rewrite IH. ring. Qed.
Lemma sumf_zero {A} (l : list A) : sumf (fun _ => 0) l = 0.
Proof. induction l as [|a l IH]; cbn; [ring|]. rewrite IH. ring. Qed.
Lemma sumf_nonneg {A} (f : A -> R) l : (forall a, In a l -> 0 <= f a) -> 0 <= sumf f l.
Proof. induction l as [|a l IH]; intro H; cbn; [lra|]. assert (0 <= f a) by (apply H; left; reflexivity). assert (0 <= sumf f l) by (apply IH; intros; apply H; right; assumption). lra. Qed.
Lemma sumf_null {A} (f : A -> R) l : (forall a, In a l -> 0 <= f a) -> sumf f l = 0 -> forall a, In a l -> f a = 0.
Proof.
  induction l as [|b l IH]; intros H E a I; [contradiction|]. cbn in E. assert (0 <= f b) by (apply H; left; reflexivity).
  assert (0 <= sumf f l) by (apply sumf_nonneg; intros; apply H; right; assumption).
  destruct I as [->|I]; [lra|]. apply IH; [intros; apply H; right; assumption|lra|exact I].
Qed.
Lemma dot_map {A} (f g : A -> R) l : dot (map f l) (map g l) = sumf (fun a => f a * g a) l.
Proof. induction l as [|a l IH]; [reflexivity|]. cbn. rewrite IH. reflexivity. Qed.
Lemma dot_plus_l {A} (f g : A -> R) l w : dot (map (fun a => f a + g a) l) w = dot (map f l) w + dot (map g l) w.
Proof. revert w. induction l as [|a l IH]; intro w; [cbn; ring|]. destruct w as [|u w]; [cbn; ring|]. cbn. rewrite IH. ring. Qed.
Lemma dot_scal_l {A} c (f : A -> R) l w : dot (map (fun a => f a * c) l) w = c * dot (map f l) w.
Proof. revert w. induction l as [|a l IH]; intro w; [cbn; ring|]. destruct w as [|u w]; [cbn; ring|]. cbn. rewrite IH. ring. Qed.
Lemma map_nth_seq (r : list R) : map (fun i => nth i r 0) (seq 0 (length r)) = r.
Proof.
  induction r as [|x r IH]; [reflexivity|]. cbn [length seq map nth]. f_equal. rewrite <- seq_shift, map_map. exact IH.
Qed.
Lemma dot_cols {A} (D : A -> list R) (c : A -> R) l p w : (forall a, In a l -> length (D a) = p) ->
  dot (map (fun i => sumf (fun a => nth i (D a) 0 * c a) l) (seq 0 p)) w = sumf (fun a => c a * dot (D a) w) l.
Proof.
  induction l as [|a l IH]; intro H.
  - cbn. rewrite dot_comm. replace (map (fun _ => 0) (seq 0 p)) with (zeros p); [apply dot_zeros|]. unfold zeros.
    generalize 0%nat. induction p as [|p IHp]; intro s; [reflexivity|]. cbn. f_equal. apply IHp. intros a [].
  - cbn [sumf].
    rewrite (dot_plus_l (fun i => nth i (D a) 0 * c a) (fun i => sumf (fun a => nth i (D a) 0 * c a) l)). rewrite IH by (intros; apply H; right; assumption).
    f_equal. rewrite (dot_scal_l (c a) (fun i => nth i (D a) 0)). rewrite <- (H a (or_introl eq_refl)), map_nth_seq. reflexivity.
Qed.

(** one observation: row, weight, datum *)
Definition ob := (list R * R * R)%type.
Definition orow (o : ob) := fst (fst o).
Definition owt (o : ob) := snd (fst o).
Definition oy (o : ob) := snd o.
Definition gram (l : list ob) (p : nat) : list (list R) :=
  map (fun i => map (fun j => sumf (fun o => nth j (orow o) 0 * (nth i (orow o) 0 * owt o)) l) (seq 0 p)) (seq 0 p).
Definition grhs (l : list ob) (p : nat) : list R := map (fun i => sumf (fun o => nth i (orow o) 0 * (oy o * owt o)) l) (seq 0 p).
Definition loss (l : list ob) (w : list R) : R := sumf (fun o => owt o * (oy o - dot (orow o) w) ^ 2) l.
Definition diff (a b : list R) : list R := map (fun z => fst z - 1 * snd z) (combine a b).
Lemma dot_diff r a b : length a = length b -> length r = length a -> dot r (diff a b) = dot r a - dot r b.
Proof. intros L1 L2. unfold diff. rewrite dot_comm, dot_elim by lia. rewrite (dot_comm a r), (dot_comm b r). ring. Qed.
Lemma diff_length a b : length a = length b -> length (diff a b) = length a.
Proof. intro L. unfold diff. rewrite map_length, combine_length. lia. Qed.

Section LS.
Variables (l : list ob) (p : nat).
Hypothesis W : forall o, In o l -> length (orow o) = p.
Hypothesis V : forall o, In o l -> 0 < owt o.
Lemma gram_length : length (gram l p) = p.
Proof using. unfold gram. rewrite map_length, seq_length. reflexivity. Qed.
Lemma gram_wide : Forall (fun r => length r = length (gram l p)) (gram l p).
Proof using. rewrite gram_length. unfold gram. apply Forall_forall. intros r I. apply in_map_iff in I. destruct I as (i & <- & _). rewrite map_length, seq_length. reflexivity. Qed.
Lemma gram_row i w : (i < p)%nat -> dot (nth i (gram l p) []) w = sumf (fun o => nth i (orow o) 0 * owt o * dot (orow o) w) l.
Proof using W.
  intro Hi. unfold gram. rewrite (nth_indep _ [] ((fun i => map (fun j => sumf (fun o => nth j (orow o) 0 * (nth i (orow o) 0 * owt o)) l) (seq 0 p)) 0%nat)) by (rewrite map_length, seq_length; exact Hi).
  rewrite (map_nth (fun i => map (fun j => sumf (fun o => nth j (orow o) 0 * (nth i (orow o) 0 * owt o)) l) (seq 0 p))), seq_nth by exact Hi. cbn [Nat.add].
  exact (dot_cols orow (fun o => nth i (orow o) 0 * owt o) l p w W).
Qed.
Lemma gram_map w : map (fun r => dot r w) (gram l p) = map (fun i => sumf (fun o => nth i (orow o) 0 * (dot (orow o) w * owt o)) l) (seq 0 p).
Proof using W.
  unfold gram. rewrite map_map. apply map_ext. intro i. rewrite (dot_cols orow (fun o => nth i (orow o) 0 * owt o) l p w W). apply sumf_ext. intros. ring.
Qed.
(** the quadratic form *)
Lemma quad_form w v : dot (map (fun i => sumf (fun o => nth i (orow o) 0 * (v o * owt o)) l) (seq 0 p)) w = sumf (fun o => owt o * v o * dot (orow o) w) l.
Proof using W. rewrite (dot_cols orow (fun o => v o * owt o) l p w W). apply sumf_ext. intros. ring. Qed.
Lemma gram_kernel w : Forall (fun r => dot r w = 0) (gram l p) -> forall o, In o l -> dot (orow o) w = 0.
Proof using W V.
  intros H o I. assert (Z : map (fun r => dot r w) (gram l p) = zeros p).
  { assert (G := gram_length). revert H G. clear. generalize (gram l p) as A. intros A. revert p. induction A as [|r A IH]; intros p H G; cbn in G; subst p; [reflexivity|].
    inversion H; subst. cbn. f_equal; [assumption|]. apply IH; [assumption|reflexivity]. }
  rewrite gram_map in Z. assert (QF := quad_form w (fun o => dot (orow o) w)). cbv beta in QF. rewrite Z in QF. rewrite dot_comm, dot_zeros in QF.
  assert (N := sumf_null (fun o => owt o * dot (orow o) w * dot (orow o) w) l). cbv beta in N.
  assert (owt o * dot (orow o) w * dot (orow o) w = 0).
  { apply N; [|lra|exact I]. intros a Ia. assert (0 < owt a) by (apply V; exact Ia). rewrite Rmult_assoc. apply Rmult_le_pos; [lra|]. apply Rle_0_sqr. }
  assert (0 < owt o) by (apply V; exact I). rewrite Rmult_assoc in H0. apply Rmult_integral in H0. destruct H0 as [H0|H0]; [lra|]. apply Rmult_integral in H0. tauto.
Qed.
Lemma kernel_gram w : (forall o, In o l -> dot (orow o) w = 0) -> Forall (fun r => dot r w = 0) (gram l p).
Proof using W.
  intros H. apply Forall_forall. intros r I. apply in_map with (f := fun r => dot r w) in I. rewrite gram_map in I. apply in_map_iff in I. destruct I as (i & <- & _).
  rewrite (sumf_ext _ (fun _ => 0)); [apply sumf_zero|]. intros o Io. rewrite (H o Io). ring.
Qed.
Lemma ls_total : (forall w, length w = p -> (forall o, In o l -> dot (orow o) w = 0) -> w = zeros p) -> exists w, linsolve (gram l p) (grhs l p) = Ok w.
Proof using W V.
  intro J. apply linsolve_complete; [exact gram_wide|unfold grhs; rewrite map_length, seq_length, gram_length; reflexivity|].
  rewrite gram_length. intros w LW H. apply J; [exact LW|]. apply gram_kernel. exact H.
Qed.
Lemma ls_min w : linsolve (gram l p) (grhs l p) = Ok w -> length w = p /\ forall w', length w' = p -> loss l w <= loss l w'.
Proof using W V.
  intro E. destruct (linsolve_sound _ _ _ E) as (LW & _ & SV). rewrite gram_length in LW. split; [exact LW|]. intros w' LW'.
  rewrite gram_map in SV.
  assert (DQ : forall o, In o l -> dot (orow o) (diff w' w) = dot (orow o) w' - dot (orow o) w) by (intros o I; apply dot_diff; [lia|rewrite (W o I); lia]).
  assert (C : sumf (fun o => owt o * (oy o - dot (orow o) w) * dot (orow o) (diff w' w)) l = 0).
  { assert (Q1 := quad_form (diff w' w) (fun o => dot (orow o) w)). assert (Q2 := quad_form (diff w' w) oy). cbv beta in *. fold (grhs l p) in Q2. rewrite <- SV in Q2. rewrite Q1 in Q2.
    rewrite (sumf_ext _ (fun o => owt o * oy o * dot (orow o) (diff w' w) + -1 * (owt o * dot (orow o) w * dot (orow o) (diff w' w)))) by (intros; ring).
    rewrite sumf_plus, sumf_scal. lra. }
  assert (X : loss l w' = loss l w + -2 * sumf (fun o => owt o * (oy o - dot (orow o) w) * dot (orow o) (diff w' w)) l + sumf (fun o => owt o * dot (orow o) (diff w' w) ^ 2) l).
  { unfold loss. rewrite <- sumf_scal, <- !sumf_plus. apply sumf_ext. intros o I. rewrite (DQ o I). ring. }
  rewrite X, C. assert (0 <= sumf (fun o => owt o * dot (orow o) (diff w' w) ^ 2) l); [|lra].
  apply sumf_nonneg. intros o I. assert (0 < owt o) by (apply V; exact I). apply Rmult_le_pos; [lra|]. apply pow2_ge_0.
Qed.
Lemma ls_exact w : length w = p -> (forall o, In o l -> oy o = dot (orow o) w) ->
  (forall v, length v = p -> (forall o, In o l -> dot (orow o) v = 0) -> v = zeros p) -> linsolve (gram l p) (grhs l p) = Ok w.
Proof using W V.
  intros LW H J. replace (grhs l p) with (map (fun r => dot r w) (gram l p)).
  - apply linsolve_unique; [exact gram_wide|rewrite gram_length; exact LW|]. rewrite gram_length. intros v LV K. apply J; [exact LV|]. apply gram_kernel. exact K.
  - rewrite gram_map. unfold grhs. apply map_ext. intro i. apply sumf_ext. intros o I. rewrite (H o I). reflexivity.
Qed.
(** a singular system is reported *)
Lemma ls_singular w : length w = p -> w <> zeros p -> (forall o, In o l -> dot (orow o) w = 0) -> linsolve (gram l p) (grhs l p) = Err LinAlgErr.
Proof using W.
  intros LW NZ H. destruct (linsolve (gram l p) (grhs l p)) as [v|e] eqn:E.
  - exfalso. apply NZ. assert (S := linsolve_inj _ _ _ E). rewrite gram_length in S. apply S; [exact LW|]. apply kernel_gram. exact H.
  - f_equal. revert E. unfold linsolve. destruct (_ && _); [destruct (gauss _ _)|]; congruence.
Qed.
End LS.
