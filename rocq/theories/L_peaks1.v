(** * Selection of the peaks *)
From Coq Require Import Reals List Bool Arith ZArith Lia Lra Permutation Sorted.
From Verif Require Import Num CoreOps Inst CoreLin L_lin M_ttv M_peaks Spec_peaks.
Import ListNotations.
Open Scope R_scope.

Lemma fth_fin ps i : (i < length ps)%nat -> fth i (map Fin ps) = Fin (nth i ps 0).
Proof. intro H. unfold fth. rewrite (nth_indep _ NaN (Fin 0)) by (rewrite map_length; exact H). apply map_nth. Qed.
Lemma local_maxima_iff ps i : In i (local_maxima (map Fin ps)) <-> strict_peak ps i.
Proof.
  unfold local_maxima. rewrite filter_In, in_seq, map_length, andb_true_iff. unfold strict_peak. split.
  - intros ((H1 & H2) & H3 & H4). rewrite !fth_fin in * by lia. cbn in H3, H4. unfold Rltb in *. destruct (Rlt_dec (nth (i - 1) ps 0) _); [|discriminate]. destruct (Rlt_dec (nth (i + 1) ps 0) _); [|discriminate]. repeat split; try lia; assumption.
  - intros (H1 & H2 & H3 & H4). split; [lia|]. rewrite !fth_fin by lia. cbn. unfold Rltb. destruct (Rlt_dec _ _); [|contradiction]. destruct (Rlt_dec _ _); [|contradiction]. split; reflexivity.
Qed.
Lemma local_maxima_nodup ps : NoDup (local_maxima ps).
Proof. unfold local_maxima. apply NoDup_filter, seq_NoDup. Qed.
Lemma map_nth_seq_nat (l : list nat) : map (fun i => nth i l 0%nat) (seq 0 (length l)) = l.
Proof. induction l as [|x r IH]; [reflexivity|]. cbn [length seq map nth]. f_equal. rewrite <- seq_shift, map_map. exact IH. Qed.
Lemma ssorted_map {A C} (R : C -> C -> Prop) (f : A -> C) l : StronglySorted R (map f l) <-> StronglySorted (fun a b => R (f a) (f b)) l.
Proof.
  induction l as [|a l IH]; [split; constructor|]. cbn. split; intro H; inversion H as [|? ? H1 H2]; subst; constructor.
  - apply IH; exact H1.
  - rewrite Forall_map in H2. exact H2.
  - apply IH; exact H1.
  - rewrite Forall_map. exact H2.
Qed.
Lemma ssorted_app {A} (R : A -> A -> Prop) l1 l2 : StronglySorted R (l1 ++ l2) <-> StronglySorted R l1 /\ StronglySorted R l2 /\ forall a b, In a l1 -> In b l2 -> R a b.
Proof.
  induction l1 as [|x l1 IH]; cbn.
  - split; [intro H; repeat split; [constructor|exact H|intros ? ? []]|tauto].
  - split.
    + intro H. inversion H as [|? ? H1 H2]; subst. apply IH in H1. destruct H1 as (S1 & S2 & C). rewrite Forall_forall in H2. repeat split; try assumption.
      * constructor; [assumption|]. apply Forall_forall. intros; apply H2; apply in_or_app; left; assumption.
      * intros a b [<-|Ia] Ib; [apply H2; apply in_or_app; right; assumption|apply C; assumption].
    + intros (S1 & S2 & C). inversion S1 as [|? ? H1 H2]; subst. constructor.
      * apply IH. repeat split; try assumption. intros; apply C; [right|]; assumption.
      * apply Forall_forall. intros z I. apply in_app_or in I. destruct I as [I|I]; [rewrite Forall_forall in H2; apply H2; assumption|apply C; [left; reflexivity|assumption]].
Qed.
Lemma ssorted_rev {A} (R : A -> A -> Prop) l : StronglySorted R l -> StronglySorted (fun a b => R b a) (rev l).
Proof.
  induction 1 as [|a l S IH F]; [constructor|]. cbn. apply ssorted_app. split; [exact IH|]. split; [constructor; constructor|]. intros x y Ix [<-|[]]. apply in_rev in Ix. rewrite Forall_forall in F. apply F. exact Ix.
Qed.

Lemma ssorted_in {A} (R R2 : A -> A -> Prop) l : (forall a b, In a l -> In b l -> R a b -> R2 a b) -> StronglySorted R l -> StronglySorted R2 l.
Proof.
  intros H S. induction S as [|a l S IH F]; [constructor|]. constructor; [apply IH; intros; apply H; [right|right|]; assumption|].
  apply Forall_forall. intros b I. rewrite Forall_forall in F. apply H; [left; reflexivity|right; exact I|apply F; exact I].
Qed.
(** the samples in decreasing order *)
Definition ordered (argsort : list fl -> list nat) (power : list fl) : list nat :=
  rev (map (fun j => nth j (local_maxima power) 0%nat) (argsort (map (fun i => fth i power) (local_maxima power)))).
Lemma ordered_ok argsort ps : sorts argsort -> let is := ordered argsort (map Fin ps) in
  Permutation is (local_maxima (map Fin ps)) /\ StronglySorted (fun i j => nth j ps 0 <= nth i ps 0) is.
Proof.
  intros S is. unfold is, ordered. set (L := local_maxima (map Fin ps)).
  assert (E : map (fun i => fth i (map Fin ps)) L = map Fin (map (fun i => nth i ps 0) L)).
  { rewrite map_map. apply map_ext_in. intros i I. apply local_maxima_iff in I. apply fth_fin. destruct I as (? & ? & _). lia. }
  rewrite E. destruct (S (map (fun i => nth i ps 0) L)) as [P SS]. set (s := argsort _) in *. rewrite map_length in P. split.
  - rewrite <- Permutation_rev. rewrite P. rewrite map_nth_seq_nat. reflexivity.
  - apply (ssorted_rev (fun a b => nth a ps 0 <= nth b ps 0)). apply ssorted_map.
    apply (proj1 (ssorted_map Rle (fun j => nth j (map (fun i => nth i ps 0) L) 0) s)) in SS. revert SS. assert (IN : forall j, In j s -> (j < length L)%nat). { intros j I. apply (Permutation_in _ P) in I. apply in_seq in I. lia. }
    clear -IN. intro SS. assert (Q : forall j, (j < length L)%nat -> nth j (map (fun i => nth i ps 0) L) 0 = nth (nth j L 0%nat) ps 0).
    { intros j Hj. rewrite (nth_indep _ 0 (nth 0%nat ps 0)) by (rewrite map_length; exact Hj). apply (map_nth (fun i => nth i ps 0)). }
    apply (ssorted_in (fun a b => nth a (map (fun i => nth i ps 0) L) 0 <= nth b (map (fun i => nth i ps 0) L) 0)); [|exact SS].
    intros a b Ia Ib H. rewrite <- !Q; [exact H|apply IN; exact Ib|apply IN; exact Ia].
Qed.
Lemma chosen_prefix argsort ps m : sorts argsort -> chosen ps m (firstn m (ordered argsort (map Fin ps))).
Proof.
  intro S. destruct (ordered_ok argsort ps S) as [P SS]. cbv zeta in *. set (is := ordered _ _) in *.
  assert (ND : NoDup is) by (apply (Permutation_NoDup (Permutation_sym P)); apply local_maxima_nodup).
  assert (D := firstn_skipn m is). assert (SS' := SS). rewrite <- D in SS'. apply ssorted_app in SS'. destruct SS' as (S1 & S2 & C).
  constructor.
  - rewrite <- D in ND. clear -ND. induction (firstn m is) as [|a l IH]; [constructor|]. cbn in ND. inversion ND; subst. constructor; [intro I; apply H1; apply in_or_app; left; exact I|apply IH; assumption].
  - intros i I. apply local_maxima_iff. apply (Permutation_in _ P). rewrite <- D. apply in_or_app. left. exact I.
  - exact S1.
  - rewrite firstn_length. lia.
  - intros i Hi NI. apply local_maxima_iff in Hi. apply (Permutation_in _ (Permutation_sym P)) in Hi. rewrite <- D in Hi. apply in_app_or in Hi. destruct Hi as [Hi|Hi]; [contradiction|].
    split; [|intros j Ij; apply (C j i Ij Hi)]. rewrite firstn_length. destruct (Nat.le_gt_cases m (length is)); [lia|]. rewrite skipn_all2 in Hi by lia. contradiction.
Qed.

(** ** the parabola *)
Definition vander (fs : list R) : list (list R) := map (fun f => [f * f; f; 1]) fs.
Lemma vander_inj f1 f2 f3 : f1 <> f2 -> f2 <> f3 -> f1 <> f3 -> forall w, length w = 3%nat -> List.Forall (fun r => dot r w = 0) (vander [f1; f2; f3]) -> w = zeros 3.
Proof.
  intros N1 N2 N3 w L H. destruct w as [|a [|b [|c [|]]]]; try discriminate. unfold vander in H. cbn [map] in H. inversion H as [|? ? H1 H']; subst. inversion H' as [|? ? H2 H'']; subst. inversion H'' as [|? ? H3 _]; subst. cbn [dot] in *.
  assert (E1 : (f2 - f1) * (a * (f2 + f1) + b) = 0) by lra. assert (E2 : (f3 - f2) * (a * (f3 + f2) + b) = 0) by lra.
  apply Rmult_integral in E1. apply Rmult_integral in E2. destruct E1 as [E1|E1]; [lra|]. destruct E2 as [E2|E2]; [lra|].
  assert (E3 : a * (f3 - f1) = 0) by lra. apply Rmult_integral in E3. destruct E3 as [->|E3]; [|lra]. assert (b = 0) by lra. subst. unfold zeros. cbn. repeat f_equal. lra.
Qed.
Lemma vander_solve f1 f2 f3 l : length l = 3%nat -> f1 <> f2 -> f2 <> f3 -> f1 <> f3 -> exists a b c, linsolve (vander [f1; f2; f3]) l = Ok [a; b; c] /\
  l = [a * (f1 * f1) + b * f1 + c; a * (f2 * f2) + b * f2 + c; a * (f3 * f3) + b * f3 + c].
Proof.
  intros L N1 N2 N3. destruct (linsolve_complete (vander [f1; f2; f3]) l) as (w & E).
  - repeat constructor.
  - exact L.
  - exact (vander_inj f1 f2 f3 N1 N2 N3).
  - destruct (linsolve_sound _ _ _ E) as (LW & _ & SV). destruct w as [|a [|b [|c [|]]]]; try discriminate. exists a, b, c. split; [exact E|]. rewrite <- SV. cbn. repeat (apply (f_equal2 cons); [ring|]). reflexivity.
Qed.
Lemma three {A} (l : list A) (d : A) i : (1 <= i)%nat -> (i + 1 < length l)%nat -> firstn 3 (skipn (i - 1) l) = [nth (i - 1) l d; nth i l d; nth (i + 1) l d].
Proof.
  intros H1 H2. replace (nth i l d) with (nth (S (i - 1)) l d) by (f_equal; lia). replace (nth (i + 1) l d) with (nth (S (S (i - 1))) l d) by (f_equal; lia).
  assert (H : (i - 1 + 2 < length l)%nat) by lia. clear H1 H2. revert l H. generalize (i - 1)%nat. induction n as [|n IH]; intros l H.
  - destruct l as [|a [|b [|c l]]]; try (cbn in H; lia). reflexivity.
  - destruct l as [|a l]; [cbn in H; lia|]. cbn [skipn nth]. apply IH. cbn in H. lia.
Qed.
Lemma parabola_shape f1 f2 f3 a b c l1 l2 l3 : (f1 < f2 < f3 \/ f3 < f2 < f1) -> a * (f1 * f1) + b * f1 + c = l1 -> a * (f2 * f2) + b * f2 + c = l2 -> a * (f3 * f3) + b * f3 + c = l3 ->
  l1 < l2 -> l3 < l2 -> a < 0 /\ Rmin (f1 + f2) (f2 + f3) < 2 * (- b / (2 * a)) < Rmax (f1 + f2) (f2 + f3).
Proof.
  intros M E1 E2 E3 L1 L3. assert (D1 : (f2 - f1) * (a * (f2 + f1) + b) = l2 - l1) by (subst; ring). assert (D2 : (f3 - f2) * (a * (f3 + f2) + b) = l3 - l2) by (subst; ring).
  destruct M as [M|M].
  - assert (S1 : 0 < a * (f2 + f1) + b). { apply Rmult_lt_reg_l with (f2 - f1); lra. } assert (S2 : a * (f3 + f2) + b < 0). { apply Rmult_lt_reg_l with (f3 - f2); lra. }
    assert (A : a < 0). { apply Rmult_lt_reg_l with (f3 - f1); lra. } split; [exact A|].
    rewrite Rmin_left, Rmax_right by lra. set (v := - b / (2 * a)). assert (EV : b = - 2 * a * v) by (unfold v; field; lra). rewrite EV in S1, S2.
    split; apply Rmult_lt_reg_l with (- a); lra.
  - assert (S1 : a * (f2 + f1) + b < 0). { apply Rmult_lt_reg_l with (f1 - f2); lra. } assert (S2 : 0 < a * (f3 + f2) + b). { apply Rmult_lt_reg_l with (f2 - f3); lra. }
    assert (A : a < 0). { apply Rmult_lt_reg_l with (f1 - f3); lra. } split; [exact A|].
    rewrite Rmin_right, Rmax_left by lra. set (v := - b / (2 * a)). assert (EV : b = - 2 * a * v) by (unfold v; field; lra). rewrite EV in S1, S2.
    split; apply Rmult_lt_reg_l with (- a); lra.
Qed.
