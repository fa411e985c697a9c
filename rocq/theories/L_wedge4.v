(** * Radial weights give all directions the same weight *)
From Coq Require Import Reals Lra Lia Psatz.
From Coquelicot Require Import Coquelicot.
From Verif Require Import Num Spec_prior Spec_plane L_real L_area L_prior L_wedge L_wedge2 L_wedge3.
Open Scope R_scope.

Lemma slope_lt a b t : 0 < b -> a < b * t -> a / b < t.
Proof. intros Hb H. apply Rmult_lt_reg_r with b; [exact Hb|]. replace (a / b * b) with a by (field; lra). lra. Qed.
Lemma slope_gt a b t : 0 < b -> b * t < a -> t < a / b.
Proof. intros Hb H. apply Rmult_lt_reg_r with b; [exact Hb|]. replace (a / b * b) with a by (field; lra). lra. Qed.
Lemma slope_pos a b : 0 < a -> 0 < b -> 0 < atan (a / b).
Proof. intros. rewrite <- atan_0. apply atan_increasing. apply Rdiv_lt_0_compat; assumption. Qed.
Lemma below a b th : 0 < b -> - (PI / 2) < th < PI / 2 -> a < b * tan th -> atan (a / b) < th.
Proof. intros Hb Ht H. rewrite <- (atan_tan th Ht). apply atan_increasing, slope_lt; assumption. Qed.
Lemma above a b th : 0 < b -> - (PI / 2) < th < PI / 2 -> b * tan th < a -> th < atan (a / b).
Proof. intros Hb Ht H. rewrite <- (atan_tan th Ht) at 1. apply atan_increasing, slope_gt; assumption. Qed.
Lemma up_angle a b : 0 < b -> Ratan2 a b = atan (a / b).
Proof. intro H. unfold Ratan2. destruct (Rlt_dec 0 b); [reflexivity|contradiction]. Qed.
Lemma down_right a b : 0 < b -> 0 < a -> Ratan2 a (- b) = PI - atan (a / b).
Proof.
  intros H Ha. unfold Ratan2. destruct (Rlt_dec 0 (- b)); [lra|]. destruct (Rlt_dec (- b) 0); [|lra]. destruct (Rle_dec 0 a); [|lra].
  replace (a / - b) with (- (a / b)) by (field; lra). rewrite atan_opp. ring.
Qed.
Lemma down_left a b : 0 < b -> 0 < a -> Ratan2 (- a) (- b) = atan (a / b) - PI.
Proof.
  intros H Ha. unfold Ratan2. destruct (Rlt_dec 0 (- b)); [lra|]. destruct (Rlt_dec (- b) 0); [|lra]. destruct (Rle_dec 0 (- a)); [lra|].
  replace (- a / - b) with (a / b) by (field; lra). reflexivity.
Qed.
Lemma tan_sign th : 0 <= th < PI / 2 -> 0 <= tan th.
Proof. intro H. destruct (proj1 H) as [i|<-]; [left; apply tan_gt_0; lra|rewrite tan_0; lra]. Qed.

Section Radial.
Variable h : R -> R.
Variable C : R.
Hypothesis Ch : forall u, continuous h u.
Hypothesis C0 : 0 < C.
Hypothesis Bh : forall u, 0 <= u -> 0 <= h u <= C * exp (- (1 / 4 * u)).
Variable L : R.
Hypothesis HL : forall u, 0 <= u -> 0 <= L - Phi h u <= 4 * C * exp (- (1 / 4 * u)).
Notation row := (row h).
Notation whole := (whole h C Ch C0 Bh).

Lemma row_odd b x : row b (- x) = - row b x.
Proof.
  assert (I1 := RInt_correct (V := R_CompleteNormedModule) _ _ _ (line_int h Ch b 0 x)). fold (row b x) in I1.
  assert (J := is_RInt_comp_opp (V := R_NormedModule) (fun a => h (a * a + b * b)) 0 (- x) (row b x)). rewrite Ropp_0, Ropp_involutive in J. specialize (J I1).
  apply (is_RInt_opp (V := R_NormedModule)) in J. apply (is_RInt_unique (V := R_CompleteNormedModule)) in J. unfold L_wedge.row at 1. eapply eq_trans; [|exact J]. apply RInt_ext.
  intros a _. rewrite opp_opp. f_equal. ring.
Qed.
Section Half.
Variable b : R.
Variable Pr : R -> Prop.
Variable d : forall a, {Pr a} + {~ Pr a}.
Notation w := (fun a => one_if (d a) * h (a * a + b * b)).
Lemma if_yes a : Pr a -> w a = h (a * a + b * b).
Proof. intro H. unfold one_if. destruct (d a); [ring|contradiction]. Qed.
Lemma if_no a : ~ Pr a -> w a = 0.
Proof. intro H. unfold one_if. destruct (d a); [contradiction|ring]. Qed.
Lemma half_all : (forall a, 0 < a -> Pr a) -> half w (whole b).
Proof. intro H. apply (half_ext (fun a => h (a * a + b * b))); [|apply half_row]. intros a Ha. symmetry. apply if_yes. auto. Qed.
Lemma half_none : (forall a, 0 < a -> ~ Pr a) -> half w 0.
Proof. intro H. apply (half_ext (fun _ => 0)); [|apply half_zero]. intros a Ha. symmetry. apply if_no. auto. Qed.
Lemma half_to c : 0 <= c -> (forall a, 0 < a < c -> Pr a) -> (forall a, c < a -> ~ Pr a) -> half w (row b c).
Proof.
  intros Hc H1 H2. apply (half_upto (fun a => h (a * a + b * b)) c); [exact Hc| |intros; apply line_int; exact Ch| |].
  - apply (RInt_correct (V := R_CompleteNormedModule)), line_int, Ch.
  - intros a Ha. apply if_yes. auto.
  - intros a Ha. apply if_no. auto.
Qed.
End Half.
Lemma half_from b (Pr : R -> Prop) (d : forall a, {Pr a} + {~ Pr a}) c : 0 <= c -> (forall a, 0 < a < c -> ~ Pr a) -> (forall a, c < a -> Pr a) -> half (fun a => one_if (d a) * h (a * a + b * b)) (whole b - row b c).
Proof.
  intros Hc H1 H2. assert (A := half_row h C Ch C0 Bh b).
  assert (B : half (fun a => (1 - one_if (d a)) * h (a * a + b * b)) (row b c)).
  { apply (half_upto (fun a => h (a * a + b * b)) c); [exact Hc| |intros; apply line_int; exact Ch| |].
    - apply (RInt_correct (V := R_CompleteNormedModule)), line_int, Ch.
    - intros a Ha. unfold one_if. destruct (d a) as [i|i]; [elim (H1 a Ha i)|ring].
    - intros a Ha. unfold one_if. destruct (d a) as [i|i]; [ring|elim i; auto]. }
  apply half_opp in B. assert (D := half_plus _ _ _ _ A B). revert D. apply half_ext. intros a _. ring.
Qed.
(** both halves of a line *)
Lemma line_if b (Pr : R -> Prop) (d : forall a, {Pr a} + {~ Pr a}) u v :
  half (fun a => one_if (d a) * h (a * a + b * b)) u -> half (fun a => one_if (d (- a)) * h (a * a + b * b)) v -> over_line (fun a => one_if (d a) * h (a * a + b * b)) (u + v).
Proof.
  intros H1 H2. apply line_of; [exact H1|]. revert H2. apply half_ext. intros a _. f_equal. f_equal. ring.
Qed.

Notation ind th := (fun a b => one_if (Rle_dec (Ratan2 a b) th) * h (a * a + b * b)).
Lemma top th : exists F v, (forall b, 0 < b -> over_line (fun a => ind th a b) (F b)) /\ half F v /\
  (PI / 2 <= th -> v = L / 2 * PI) /\ (- (PI / 2) < th < PI / 2 -> v = L / 2 * (PI / 2 + th)) /\ (th <= - (PI / 2) -> v = 0).
Proof.
  assert (Pi := PI_RGT_0). assert (W := whole_half h C Ch C0 Bh L HL).
  destruct (Rle_dec (PI / 2) th) as [i|i].
  { exists (fun b => whole b + whole b), (L / 2 * (PI / 2) + L / 2 * (PI / 2)). split; [|split; [apply half_plus; exact W|split; [intros; field|split; lra]]].
    intros b Hb. apply (line_if b (fun a => Ratan2 a b <= th) (fun a => Rle_dec (Ratan2 a b) th)).
    - apply (half_all b (fun a => Ratan2 a b <= th)). intros a Ha. rewrite up_angle by exact Hb. assert (B := atan_bound (a / b)). lra.
    - apply (half_all b (fun a => Ratan2 (- a) b <= th) (fun a => Rle_dec (Ratan2 (- a) b) th)). intros a Ha. rewrite up_angle by exact Hb. assert (B := atan_bound (- a / b)). lra. }
  destruct (Rle_dec th (- (PI / 2))) as [j|j].
  { exists (fun b => 0 + 0), (0 + 0). split; [|split; [apply half_plus; apply half_zero|split; [lra|split; lra]]].
    intros b Hb. apply (line_if b (fun a => Ratan2 a b <= th) (fun a => Rle_dec (Ratan2 a b) th)).
    - apply (half_none b (fun a => Ratan2 a b <= th)). intros a Ha. rewrite up_angle by exact Hb. assert (B := atan_bound (a / b)). lra.
    - apply (half_none b (fun a => Ratan2 (- a) b <= th) (fun a => Rle_dec (Ratan2 (- a) b) th)). intros a Ha. rewrite up_angle by exact Hb. assert (B := atan_bound (- a / b)). lra. }
  assert (Ht : - (PI / 2) < th < PI / 2) by lra.
  exists (fun b => whole b + row b (b * tan th)), (L / 2 * (PI / 2) + L / 2 * atan (tan th)).
  split; [|split; [apply half_plus; [exact W|apply (sector_half h C Ch C0 L HL)]|split; [lra|split; [intros _; rewrite atan_tan by exact Ht; ring|lra]]]].
  intros b Hb. destruct (Rle_dec 0 th) as [k|k].
  - assert (T := tan_sign th ltac:(lra)). assert (Q : 0 <= b * tan th) by (apply Rmult_le_pos; lra). rewrite Rplus_comm.
    apply (line_if b (fun a => Ratan2 a b <= th) (fun a => Rle_dec (Ratan2 a b) th)).
    + apply (half_to b (fun a => Ratan2 a b <= th)); [exact Q| |]; intros a Ha; rewrite up_angle by exact Hb.
      * left. apply below; [exact Hb|exact Ht|apply Ha].
      * assert (A := above a b th Hb Ht Ha). lra.
    + apply (half_all b (fun a => Ratan2 (- a) b <= th) (fun a => Rle_dec (Ratan2 (- a) b) th)). intros a Ha. rewrite up_angle by exact Hb. left. apply below; [exact Hb|exact Ht|lra].
  - assert (T := tan_sign (- th) ltac:(lra)). rewrite tan_neg in T. assert (Q : 0 <= b * - tan th) by (apply Rmult_le_pos; lra).
    replace (whole b + row b (b * tan th)) with (0 + (whole b - row b (b * - tan th))) by (replace (b * tan th) with (- (b * - tan th)) by ring; rewrite row_odd; ring).
    apply (line_if b (fun a => Ratan2 a b <= th) (fun a => Rle_dec (Ratan2 a b) th)).
    + apply (half_none b (fun a => Ratan2 a b <= th)). intros a Ha. rewrite up_angle by exact Hb. assert (A := above a b th Hb Ht ltac:(lra)). lra.
    + apply (half_from b (fun a => Ratan2 (- a) b <= th) (fun a => Rle_dec (Ratan2 (- a) b) th)); [exact Q| |]; intros a Ha; rewrite up_angle by exact Hb.
      * assert (A := above (- a) b th Hb Ht ltac:(lra)). lra.
      * left. apply below; [exact Hb|exact Ht|lra].
Qed.
Lemma bottom th : - PI <= th <= PI -> exists F v, (forall b, 0 < b -> over_line (fun a => one_if (Rle_dec (Ratan2 a (- b)) th) * h (a * a + b * b)) (F b)) /\ half F v /\
  (PI / 2 < th -> v = L / 2 * th) /\ (- (PI / 2) <= th <= PI / 2 -> v = L / 2 * (PI / 2)) /\ (th < - (PI / 2) -> v = L / 2 * (th + PI)).
Proof.
  intro Hth. assert (Pi := PI_RGT_0). assert (W := whole_half h C Ch C0 Bh L HL).
  destruct (Rlt_dec (PI / 2) th) as [i|i].
  { assert (Ht : - (PI / 2) < PI - th < PI / 2) by lra. assert (T := tan_sign (PI - th) ltac:(lra)).
    exists (fun b => (whole b - row b (b * tan (PI - th))) + whole b), ((L / 2 * (PI / 2) + - (L / 2 * atan (tan (PI - th)))) + L / 2 * (PI / 2)). split.
    - intros b Hb. assert (Q : 0 <= b * tan (PI - th)) by (apply Rmult_le_pos; lra).
      apply (line_if b (fun a => Ratan2 a (- b) <= th) (fun a => Rle_dec (Ratan2 a (- b)) th)).
      + apply (half_from b (fun a => Ratan2 a (- b) <= th)); [exact Q| |]; intros a Ha; rewrite down_right by lra.
        * assert (A := below a b _ Hb Ht (proj2 Ha)). lra.
        * assert (A := above a b _ Hb Ht Ha). lra.
      + apply (half_all b (fun a => Ratan2 (- a) (- b) <= th) (fun a => Rle_dec (Ratan2 (- a) (- b)) th)). intros a Ha. rewrite down_left by lra. assert (B := atan_bound (a / b)). lra.
    - split; [|split; [intros _; rewrite atan_tan by exact Ht; field|split; lra]].
      apply half_plus; [|exact W]. apply (half_plus whole (fun b => - row b (b * tan (PI - th)))); [exact W|]. apply half_opp. apply (sector_half h C Ch C0 L HL). }
  destruct (Rle_dec (- (PI / 2)) th) as [j|j].
  { exists (fun b => 0 + whole b), (0 + L / 2 * (PI / 2)). split; [|split; [apply half_plus; [apply half_zero|exact W]|split; [lra|split; [intros; ring|lra]]]].
    intros b Hb. apply (line_if b (fun a => Ratan2 a (- b) <= th) (fun a => Rle_dec (Ratan2 a (- b)) th)).
    - apply (half_none b (fun a => Ratan2 a (- b) <= th)). intros a Ha. rewrite down_right by assumption. assert (B := atan_bound (a / b)). lra.
    - apply (half_all b (fun a => Ratan2 (- a) (- b) <= th) (fun a => Rle_dec (Ratan2 (- a) (- b)) th)). intros a Ha. rewrite down_left by lra. assert (B := atan_bound (a / b)). lra. }
  assert (Ht : - (PI / 2) < th + PI < PI / 2) by lra. assert (T := tan_sign (th + PI) ltac:(lra)).
  exists (fun b => 0 + row b (b * tan (th + PI))), (0 + L / 2 * atan (tan (th + PI))). split.
  - intros b Hb. assert (Q : 0 <= b * tan (th + PI)) by (apply Rmult_le_pos; lra). apply (line_if b (fun a => Ratan2 a (- b) <= th) (fun a => Rle_dec (Ratan2 a (- b)) th)).
    + apply (half_none b (fun a => Ratan2 a (- b) <= th)). intros a Ha. rewrite down_right by assumption. assert (B := atan_bound (a / b)). lra.
    + apply (half_to b (fun a => Ratan2 (- a) (- b) <= th) (fun a => Rle_dec (Ratan2 (- a) (- b)) th)); [exact Q| |]; intros a Ha; rewrite down_left by lra.
      * assert (A := below a b _ Hb Ht (proj2 Ha)). lra.
      * assert (A := above a b _ Hb Ht Ha). lra.
  - split; [|split; [lra|split; [lra|intros _; rewrite atan_tan by exact Ht; ring]]].
    apply half_plus; [apply half_zero|apply (sector_half h C Ch C0 L HL)].
Qed.
Lemma sector_weight th : - PI <= th <= PI -> over_plane (ind th) (L / 2 * (th + PI)).
Proof.
  intro Hth. destruct (top th) as (F & v & F1 & F2 & V1 & V2 & V3). destruct (bottom th Hth) as (G & u & G1 & G2 & U1 & U2 & U3).
  exists (fun b => if Rlt_dec 0 b then F b else G (- b)). split.
  - intros b Nb. destruct (Rlt_dec 0 b) as [i|i]; [apply F1; exact i|]. assert (K := G1 (- b) ltac:(lra)). rewrite Ropp_involutive in K.
    replace (b * b) with (- b * - b) by ring. exact K.
  - replace (L / 2 * (th + PI)) with (v + u).
    + apply line_of.
      * revert F2. apply half_ext. intros a Ha. destruct (Rlt_dec 0 a); [reflexivity|contradiction].
      * revert G2. apply half_ext. intros a Ha. destruct (Rlt_dec 0 (- a)); [lra|]. rewrite Ropp_involutive. reflexivity.
    + assert (Pi := PI_RGT_0). destruct (Rlt_dec (PI / 2) th) as [i|i]; [rewrite V1, U1 by lra; ring|]. destruct (Rlt_dec th (- (PI / 2))) as [j|j]; [rewrite V3, U3 by lra; ring|].
      rewrite U2 by lra. destruct (Req_dec th (PI / 2)) as [->|N1]; [rewrite V1 by lra; ring|]. destruct (Req_dec th (- (PI / 2))) as [->|N2]; [rewrite V3 by lra; field|]. rewrite V2 by lra. field.
Qed.
End Radial.
