(** * Concrete periodograms *)
From Coq Require Import Reals List Bool Arith ZArith Lia Lra Permutation Sorted.
From Verif Require Import Num CoreOps Inst CoreLin M_peaks Spec_peaks L_peaks1.
Import ListNotations.
Open Scope R_scope.

(** an argsort: insertion sort of the positions *)
Fixpoint ins (l : list fl) (j : nat) (js : list nat) : list nat :=
  match js with
  | [] => [j]
  | k :: ks => if flt (fth k l) (fth j l) then k :: ins l j ks else j :: js
  end.
Definition isort (l : list fl) : list nat := fold_right (ins l) [] (seq 0 (length l)).

Lemma ins_perm l j js : Permutation (ins l j js) (j :: js).
Proof.
  induction js as [|k ks IH]; [reflexivity|]. cbn [ins]. destruct (flt _ _); [|reflexivity].
  rewrite IH. apply perm_swap.
Qed.
Lemma isort_fold_perm l js : Permutation (fold_right (ins l) [] js) js.
Proof. induction js as [|j js IH]; [reflexivity|]. cbn [fold_right]. rewrite ins_perm, IH. reflexivity. Qed.
Lemma ins_sorted ps j js : (j < length ps)%nat -> List.Forall (fun k => (k < length ps)%nat) js ->
  StronglySorted Rle (map (fun i => nth i ps 0) js) -> StronglySorted Rle (map (fun i => nth i ps 0) (ins (map Fin ps) j js)).
Proof.
  intros Hj F S. induction js as [|k ks IH]; [repeat constructor|]. cbn [ins].
  rewrite !fth_fin by (try assumption; exact (Forall_inv F)). cbn [flt]. cbn [map] in S. apply StronglySorted_inv in S. destruct S as [S1 S2].
  unfold Rltb. destruct (Rlt_dec _ _) as [H|H].
  - cbn [map]. constructor; [exact (IH (Forall_inv_tail F) S1)|]. rewrite Forall_forall in *. intros y Hy. apply in_map_iff in Hy. destruct Hy as (i & <- & Hi).
    apply (Permutation_in _ (ins_perm _ _ _)) in Hi. destruct Hi as [<-|Hi]; [lra|]. apply S2. apply in_map_iff. exists i. split; [reflexivity|exact Hi].
  - cbn [map]. constructor; [constructor; assumption|]. constructor; [lra|]. rewrite Forall_forall in *. intros y Hy. specialize (S2 y Hy). lra.
Qed.
Lemma isort_sorts : sorts isort.
Proof.
  intro ps. unfold isort. rewrite map_length. split; [apply isort_fold_perm|].
  assert (B : List.Forall (fun k => (k < length ps)%nat) (seq 0 (length ps))) by (apply Forall_forall; intros k H; apply in_seq in H; lia).
  induction (seq 0 (length ps)) as [|j js IH]; [constructor|]. cbn [fold_right]. apply ins_sorted; [exact (Forall_inv B)| |exact (IH (Forall_inv_tail B))].
  apply Forall_forall. intros k H. apply (Permutation_in _ (isort_fold_perm _ _)) in H. apply Forall_inv_tail in B. rewrite Forall_forall in B. exact (B k H).
Qed.

(** seven frequencies, two peaks, the second one higher; one sample is zero *)
Definition ex_f : list R := [1; 2; 3; 4; 5; 6; 7].
Definition ex_p : list R := [1; 3; 2; 1; 5; 0; 1].
Lemma ex_f_mono : strictly_monotone ex_f.
Proof. left. unfold ex_f. repeat (constructor; [|repeat (constructor; [lra|]); constructor]). constructor. Qed.
Lemma ex_f_pos : List.Forall (fun f => 0 <= f) ex_f.
Proof. unfold ex_f. repeat (constructor; [lra|]). constructor. Qed.
Lemma ex_peak1 : strict_peak ex_p 1. Proof. unfold strict_peak, ex_p. cbn [nth length Nat.sub Nat.add]. repeat split; try lia; lra. Qed.
Lemma ex_peak4 : strict_peak ex_p 4. Proof. unfold strict_peak, ex_p. cbn [nth length Nat.sub Nat.add]. repeat split; try lia; lra. Qed.
