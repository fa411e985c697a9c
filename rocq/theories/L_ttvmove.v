(** * TTVOrbit between transits: the bins *)
From Coq Require Import Reals Lra Lia Psatz List Bool Arith ZArith Sorted.
From Coquelicot Require Import Coquelicot.
From Verif Require Import Num CoreOps Inst M_units M_kepler M_fin M_tensor M_ttv Spec_orbit Spec_params Spec_array Spec_light Spec_ttv Spec_cont Spec_ttvmove
  L_real L_orbit L_motion L_pmotion L_pmotion5 L_ttv2 L_ttv3 L_ttv8 L_params3.
Import ListNotations.
Open Scope R_scope.

Lemma consec_gap l u v : StronglySorted Rlt l -> consecutive l u v -> u < v /\ In u l /\ In v l /\ forall w, In w l -> w <= u \/ v <= w.
Proof.
  intros S (i & A & B). revert l S A B. induction i as [|i IH]; intros [|a l] S A B; try discriminate A; cbn in A, B.
  - injection A as ->. destruct l as [|b l]; [discriminate B|]. cbn in B. injection B as ->. inversion S as [|? ? S1 F1]; subst. inversion F1; subst. inversion S1 as [|? ? S2 F2]; subst.
    split; [assumption|]. split; [left; reflexivity|]. split; [right; left; reflexivity|]. intros w [->|[->|Hw]]; [left; lra|right; lra|]. right. rewrite Forall_forall in F2. left. apply F2, Hw.
  - inversion S as [|? ? S1 F1]; subst. destruct (IH l S1 A B) as (G1 & G2 & G3 & G4). split; [exact G1|]. split; [right; exact G2|]. split; [right; exact G3|]. intros w [<-|Hw]; [|apply G4, Hw].
    left. rewrite Forall_forall in F1. left. apply F1, G2.
Qed.
Lemma gap_consec l u v : StronglySorted Rlt l -> In u l -> In v l -> u < v -> (forall w, In w l -> w <= u \/ v <= w) -> consecutive l u v.
Proof.
  intros S Hu Hv L G. induction l as [|a l IH]; [destruct Hu|]. inversion S as [|? ? S1 F1]; subst. rewrite Forall_forall in F1.
  destruct Hu as [->|Hu].
  - destruct Hv as [->|Hv]; [lra|]. exists 0%nat. split; [reflexivity|]. cbn. destruct l as [|b l]; [destruct Hv|]. cbn. f_equal.
    destruct (G b (or_intror (or_introl eq_refl))) as [Hb|Hb]; [assert (Q := F1 b (or_introl eq_refl)); lra|].
    destruct Hv as [->|Hv]; [reflexivity|]. inversion S1 as [|? ? S2 F2]; subst. rewrite Forall_forall in F2. assert (Q := F2 v Hv). lra.
  - destruct Hv as [->|Hv]; [assert (Q := F1 u Hu); lra|]. destruct (IH S1 Hu Hv) as (i & A & B); [intros w Hw; apply G; right; exact Hw|]. exists (Datatypes.S i). split; assumption.
Qed.
(** on both sides of the middle of two neighbours *)
Lemma mid_left l u v t : StronglySorted Rlt l -> consecutive l u v -> u < t -> t <= (u + v) / 2 -> nearest l t u.
Proof.
  intros S C A B. destruct (consec_gap l u v S C) as (L & I1 & _ & G). split; [exact I1|]. intros w Hw. rewrite (Rabs_pos_eq (t - u)) by lra.
  destruct (G w Hw) as [H|H]; [rewrite (Rabs_pos_eq (t - w)) by lra; split; intros; lra|]. rewrite (Rabs_left1 (t - w)) by lra. split; intros; lra.
Qed.
Lemma mid_right l u v t : StronglySorted Rlt l -> consecutive l u v -> (u + v) / 2 < t -> t < v -> nearest l t v.
Proof.
  intros S C A B. destruct (consec_gap l u v S C) as (L & _ & I2 & G). split; [exact I2|]. intros w Hw. rewrite (Rabs_left1 (t - v)) by lra.
  destruct (G w Hw) as [H|H]; [rewrite (Rabs_pos_eq (t - w)) by lra; split; intros; lra|]. rewrite (Rabs_left1 (t - w)) by lra. split; intros; lra.
Qed.
(** a time that is closer to one transit than to all others *)
Lemma strict_margin (l : list R) (t c : R) : (forall w, In w l -> w <> c -> Rabs (t - c) < Rabs (t - w)) ->
  exists d, 0 < d /\ forall s, Rabs (s - t) < d -> forall w, In w l -> w <> c -> Rabs (s - c) < Rabs (s - w).
Proof.
  induction l as [|a l IH]; intro H; [exists 1; split; [lra|intros s _ w []]|]. destruct IH as (d & D & Q); [intros w Hw; apply H; right; exact Hw|].
  destruct (Req_dec a c) as [->|Ne].
  - exists d. split; [exact D|]. intros s Hs w [<-|Hw] N; [elim N; reflexivity|apply Q; assumption].
  - assert (M := H a (or_introl eq_refl) Ne). set (g := Rabs (t - a) - Rabs (t - c)) in *. exists (Rmin d (g / 2)). split; [apply Rmin_glb_lt; unfold g; lra|].
    intros s Hs w [<-|Hw] N; [|apply Q; [eapply Rlt_le_trans; [exact Hs|apply Rmin_l]|exact Hw|exact N]].
    assert (Hs' : Rabs (s - t) < g / 2) by (eapply Rlt_le_trans; [exact Hs|apply Rmin_r]).
    assert (T1 := Rabs_triang (s - t) (t - c)). replace (s - t + (t - c)) with (s - c) in T1 by ring.
    assert (T2 := Rabs_triang (t - s) (s - a)). replace (t - s + (s - a)) with (t - a) in T2 by ring. rewrite (Rabs_minus_sym t s) in T2. unfold g in Hs'. lra.
Qed.
(** around any time there is at most one change of the nearest transit *)
Lemma around l t c : StronglySorted Rlt l -> nearest l t c ->
  (exists d, 0 < d /\ forall s, Rabs (s - t) < d -> nearest l s c) \/
  (exists v, consecutive l c v /\ t = (c + v) / 2 /\ exists d, 0 < d /\ forall s, Rabs (s - t) < d -> (s <= t -> nearest l s c) /\ (t < s -> nearest l s v)).
Proof.
  intros S N. destruct N as [Ic Hc].
  assert (D : (forall w, In w l -> w <> c -> Rabs (t - c) < Rabs (t - w)) \/ exists w, In w l /\ w <> c /\ Rabs (t - c) = Rabs (t - w)).
  { assert (Q : forall l', (forall w, In w l' -> In w l) -> (forall w, In w l' -> w <> c -> Rabs (t - c) < Rabs (t - w)) \/ exists w, In w l' /\ w <> c /\ Rabs (t - c) = Rabs (t - w)).
    { induction l' as [|a l' IH]; intro Sub; [left; intros w []|]. destruct IH as [IH|(w & A & B)]; [intros w Hw; apply Sub; right; exact Hw| |right; exists w; split; [right; exact A|exact B]].
      destruct (Req_dec a c) as [->|Ne]; [left; intros w [<-|Hw] N; [elim N; reflexivity|apply IH; assumption]|].
      destruct (Hc a (Sub a (or_introl eq_refl))) as [L _]. destruct (Rle_lt_or_eq_dec _ _ L) as [L'|L'].
      - left. intros w [<-|Hw] N; [exact L'|apply IH; assumption].
      - right. exists a. split; [left; reflexivity|]. split; assumption. }
    apply Q. intros w Hw. exact Hw. }
  destruct D as [D|(w & Iw & Ne & E)].
  - left. destruct (strict_margin l t c D) as (d & D0 & Q). exists d. split; [exact D0|]. intros s Hs. split; [exact Ic|]. intros w Hw.
    destruct (Req_dec w c) as [->|Ne]; [split; intros; lra|]. assert (L := Q s Hs w Hw Ne). split; intros; lra.
  - right. destruct (Hc w Iw) as [_ H2]. specialize (H2 E). assert (L : c < w) by (destruct (Rle_lt_or_eq_dec _ _ H2); [assumption|congruence]).
    assert (Et : t = (c + w) / 2).
    { unfold Rabs in E. destruct (Rcase_abs (t - c)), (Rcase_abs (t - w)); lra. }
    assert (C : consecutive l c w).
    { apply gap_consec; try assumption. intros y Hy. destruct (Hc y Hy) as [H3 _]. destruct (Rle_lt_dec y c) as [K|K]; [left; exact K|]. right.
      destruct (Rle_lt_dec w y) as [K'|K']; [exact K'|]. exfalso. rewrite (Rabs_pos_eq (t - c)) in H3 by lra.
      unfold Rabs in H3. destruct (Rcase_abs (t - y)); lra. }
    exists w. split; [exact C|]. split; [exact Et|]. exists ((w - c) / 2). split; [lra|]. intros s Hs. apply Rabs_def2 in Hs. split; intro H.
    + apply (mid_left l c w s S C); lra.
    + apply (mid_right l c w s S C); lra.
Qed.
