(** * Proofs: arithmetic with rounding errors *)
From Coq Require Import Reals Lra Lia Psatz.
From Verif Require Import Num CoreOps Inst Spec_float.
Open Scope R_scope.

(** x is y up to n rounding errors of size v *)
Definition ap (v n x y : R) : Prop := exists d, x = y * exp d /\ Rabs d <= n * v.

Lemma lnq x y : 0 < x -> 0 < y -> ln (x / y) = ln x - ln y.
Proof. intros Px Py. unfold Rdiv. rewrite ln_mult, ln_Rinv by (try assumption; apply Rinv_0_lt_compat; assumption). reflexivity. Qed.

Section V.
Variable u : R.
Hypothesis U : 0 <= u <= 1 / 100.
Let v := u / (1 - u).

Lemma v_bounds : 0 <= v <= 1 / 99 /\ u <= v.
Proof.
  unfold v. assert (I : 0 < / (1 - u)) by (apply Rinv_0_lt_compat; lra). assert (K : / (1 - u) <= 100 / 99).
  { apply (Rmult_le_reg_r (1 - u)); [lra|]. rewrite Rinv_l by lra. lra. }
  assert (K1 : 1 <= / (1 - u)). { apply (Rmult_le_reg_r (1 - u)); [lra|]. rewrite Rinv_l by lra. lra. }
  unfold Rdiv. split; [split|]; nra.
Qed.
Lemma ln_1p d : Rabs d <= u -> 0 < 1 + d /\ Rabs (ln (1 + d)) <= v.
Proof.
  intro H. assert (B : - u <= d <= u) by (unfold Rabs in H; destruct (Rcase_abs d); lra). assert (P : 0 < 1 + d) by lra. split; [exact P|].
  destruct v_bounds as [V1 V2]. assert (L : forall z, 0 < z -> ln z <= z - 1).
  { intros z Hz. rewrite <- (exp_ln z Hz) at 2. assert (K := exp_ineq1_le (ln z)). lra. }
  apply Rabs_le. split.
  - assert (K := L (/ (1 + d)) (Rinv_0_lt_compat _ P)). rewrite ln_Rinv in K by exact P.
    assert (/ (1 + d) - 1 <= v); [|lra]. apply Rle_trans with (/ (1 - u) - 1).
    + assert (/ (1 + d) <= / (1 - u)) by (apply Rinv_le_contravar; lra). lra.
    + unfold v. replace (/ (1 - u) - 1) with (u / (1 - u)) by (field; lra). lra.
  - assert (K := L (1 + d) P). lra.
Qed.

Lemma ap_refl x : ap v 0 x x.
Proof. exists 0. rewrite exp_0, Rabs_R0. split; ring_simplify; lra. Qed.
Lemma ap_weak n m x y : ap v n x y -> n <= m -> ap v m x y.
Proof. intros (d & -> & H) L. exists d. split; [reflexivity|]. destruct v_bounds. nra. Qed.
Lemma ap_trans n m x y z : ap v n x y -> ap v m y z -> ap v (n + m) x z.
Proof.
  intros (d & -> & H) (d' & -> & H'). exists (d' + d). split; [rewrite exp_plus; ring|]. assert (K := Rabs_triang d' d). lra.
Qed.
Lemma ap_sym n x y : ap v n x y -> ap v n y x.
Proof. intros (d & -> & H). exists (- d). split; [rewrite Rmult_assoc, <- exp_plus; replace (d + - d) with 0 by ring; rewrite exp_0; ring|rewrite Rabs_Ropp; exact H]. Qed.
Lemma ap_round n x y r : Rabs (r - x) <= u * Rabs x -> ap v n x y -> ap v (n + 1) r y.
Proof.
  intros H (d & E & D). destruct (Req_dec x 0) as [Z|Z].
  - rewrite Z, Rabs_R0, Rmult_0_r in H. assert (r - 0 = 0) by (destruct (Req_dec (r - 0) 0); [assumption|assert (K := Rabs_pos_lt _ H0); lra]).
    assert (r = 0) by lra. assert (y = 0). { rewrite Z in E. symmetry in E. apply Rmult_integral in E. destruct E as [E|E]; [exact E|]. assert (K := exp_pos d). lra. }
    subst r y. exists 0. rewrite Rabs_R0. split; [ring|]. destruct v_bounds. assert (0 <= n * v) by (eapply Rle_trans; [apply Rabs_pos|exact D]). lra.
  - destruct (ln_1p ((r - x) / x)) as [P L].
    { unfold Rdiv. rewrite Rabs_mult, Rabs_inv. apply (Rmult_le_reg_r (Rabs x)); [apply Rabs_pos_lt; exact Z|]. rewrite Rmult_assoc, Rinv_l by (apply Rabs_no_R0; exact Z). lra. }
    exists (d + ln (1 + (r - x) / x)). split.
    + rewrite exp_plus, exp_ln by exact P. rewrite <- Rmult_assoc, <- E. field. exact Z.
    + assert (K := Rabs_triang d (ln (1 + (r - x) / x))). lra.
Qed.
Lemma ap_mul n m x y x' y' : ap v n x y -> ap v m x' y' -> ap v (n + m) (x * x') (y * y').
Proof.
  intros (d & -> & H) (d' & -> & H'). exists (d + d'). split; [rewrite exp_plus; ring|]. assert (K := Rabs_triang d d'). lra.
Qed.
Lemma ap_inv n x y : ap v n x y -> ap v n (/ x) (/ y).
Proof.
  intros (d & -> & H). exists (- d). split; [|rewrite Rabs_Ropp; exact H]. rewrite exp_Ropp. rewrite Rinv_mult. reflexivity.
Qed.
Lemma ap_div n m x y x' y' : ap v n x y -> ap v m x' y' -> ap v (n + m) (x / x') (y / y').
Proof. intros A B. unfold Rdiv. apply ap_mul; [exact A|apply ap_inv; exact B]. Qed.
Lemma ap_neg n x y : ap v n x y -> ap v n (- x) (- y).
Proof. intros (d & -> & H). exists d. split; [ring|exact H]. Qed.
Lemma exp_le a b : a <= b -> exp a <= exp b.
Proof. intros [H|H]; [left; apply exp_increasing; exact H|rewrite H; lra]. Qed.
Lemma ln_mono a b : 0 < a -> a <= b -> ln a <= ln b.
Proof. intros P [H|H]; [left; apply ln_increasing; assumption|rewrite H; lra]. Qed.
Lemma ap_add n x y x' y' : 0 <= y -> 0 <= y' -> ap v n x y -> ap v n x' y' -> ap v n (x + x') (y + y').
Proof.
  intros Hy Hy' (d & -> & H) (d' & -> & H'). destruct (Req_dec (y + y') 0) as [Z|Z].
  { exists d. replace y with 0 by lra. replace y' with 0 by lra. split; [ring|exact H]. }
  assert (P : 0 < y + y') by lra. assert (E1 := exp_pos d). assert (E2 := exp_pos d').
  assert (B : - (n * v) <= d <= n * v) by (unfold Rabs in H; destruct (Rcase_abs d); lra).
  assert (B' : - (n * v) <= d' <= n * v) by (unfold Rabs in H'; destruct (Rcase_abs d'); lra).
  assert (L1 := exp_le _ _ (proj1 B)). assert (L2 := exp_le _ _ (proj2 B)). assert (L3 := exp_le _ _ (proj1 B')). assert (L4 := exp_le _ _ (proj2 B')).
  set (s := y * exp d + y' * exp d'). assert (S1 : exp (- (n * v)) * (y + y') <= s) by (unfold s; nra). assert (S2 : s <= exp (n * v) * (y + y')) by (unfold s; nra).
  assert (E3 := exp_pos (- (n * v))). assert (Sp : 0 < s) by nra.
  exists (ln (s / (y + y'))). assert (Q : 0 < s / (y + y')) by (apply Rdiv_lt_0_compat; assumption). split; [rewrite exp_ln by exact Q; field; lra|].
  apply Rabs_le. split.
  - rewrite <- (ln_exp (- (n * v))). apply ln_mono; [exact E3|]. apply (Rmult_le_reg_r (y + y')); [exact P|]. unfold Rdiv. rewrite Rmult_assoc, Rinv_l by lra. lra.
  - rewrite <- (ln_exp (n * v)). apply ln_mono; [exact Q|]. apply (Rmult_le_reg_r (y + y')); [exact P|]. unfold Rdiv. rewrite Rmult_assoc, Rinv_l by lra. lra.
Qed.
Lemma ap_sqrt n x y : 0 <= y -> ap v n x y -> ap v (n / 2) (sqrt x) (sqrt y).
Proof.
  intros Hy (d & -> & H). exists (d / 2). split.
  - rewrite sqrt_mult_alt by exact Hy. f_equal. rewrite <- (sqrt_square (exp (d / 2))) by (left; apply exp_pos). f_equal. rewrite <- exp_plus. f_equal. field.
  - unfold Rdiv. rewrite Rabs_mult, (Rabs_pos_eq (/ 2)) by lra. lra.
Qed.
Lemma ap_pos n x y : ap v n x y -> 0 < x <-> 0 < y.
Proof. intros (d & -> & _). assert (E := exp_pos d). split; intro H; nra. Qed.
Lemma off_ap n x y : 0 < y -> ap v n x y -> off x y <= n * v.
Proof. intros P (d & -> & H). unfold off. replace (y * exp d / y) with (exp d) by (field; lra). rewrite ln_exp. exact H. Qed.
Lemma ap_off n x y : 0 < x -> 0 < y -> off x y <= n * v -> ap v n x y.
Proof.
  intros Px Py H. exists (ln (x / y)). split; [rewrite exp_ln by (apply Rdiv_lt_0_compat; assumption); field; lra|exact H].
Qed.
End V.
