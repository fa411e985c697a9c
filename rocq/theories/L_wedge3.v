(** * Half planes and sectors of a radial weight *)
From Coq Require Import Reals Lra Lia Psatz.
From Coquelicot Require Import Coquelicot.
From Verif Require Import Spec_plane L_real L_area L_prior L_wedge L_wedge2.
Open Scope R_scope.

Section Radial.
Variable h : R -> R.
Variable C : R.
Hypothesis Ch : forall u, continuous h u.
Hypothesis C0 : 0 < C.
Hypothesis Bh : forall u, 0 <= u -> 0 <= h u <= C * exp (- (1 / 4 * u)).
Notation row := (row h).

Lemma h_fast a b : 0 <= a -> 0 <= h (a * a + b * b) <= 3 * C * exp (- (1 * a)).
Proof.
  intro Ha. assert (Q : 0 <= a * a + b * b) by nra. assert (B := Bh _ Q). split; [apply B|]. eapply Rle_trans; [apply B|].
  replace (3 * C * exp (- (1 * a))) with (C * (3 * exp (- (1 * a)))) by ring. apply Rmult_le_compat_l; [lra|].
  apply Rle_trans with (exp (1 + - (1 * a))).
  - assert (Q2 : - (1 / 4 * (a * a + b * b)) <= 1 + - (1 * a)) by (assert (A1 := Rle_0_sqr (a - 2)); assert (A2 := Rle_0_sqr b); unfold Rsqr in A1, A2; lra). destruct Q2 as [i|i]; [left; apply exp_increasing; exact i|right; rewrite i; reflexivity].
  - rewrite exp_plus. apply Rmult_le_compat_r; [left; apply exp_pos|]. exact exp_le_3.
Qed.
Lemma row_step b x y : 0 <= x <= y -> 0 <= row b y - row b x <= 3 * C * exp (- (1 * x)).
Proof.
  intro H. assert (E : row b y - row b x = RInt (fun a => h (a * a + b * b)) x y).
  { unfold L_wedge.row. rewrite <- (RInt_Chasles (fun a => h (a * a + b * b)) 0 x y) by (apply line_int; exact Ch). unfold plus; cbn. ring. }
  rewrite E. split.
  - apply RInt_ge_0; [lra|apply line_int; exact Ch|]. intros a Hx. apply h_fast. lra.
  - assert (I := exp_int x y 1 ltac:(lra)). apply (is_RInt_scal (V := R_NormedModule) _ x y (3 * C)) in I. assert (J := is_RInt_unique (V := R_CompleteNormedModule) _ _ _ _ I).
    apply Rle_trans with (3 * C * ((exp (- (1 * x)) - exp (- (1 * y))) / 1)).
    + apply Rle_trans with (RInt (fun y => scal (3 * C) (exp (- (1 * y)))) x y); [|right; exact J]. apply RInt_le; [lra|apply line_int; exact Ch|eexists; exact I|]. intros a Hx. apply h_fast. lra.
    + assert (Q := exp_pos (- (1 * y))). assert (C * exp (- (1 * y)) > 0) by (apply Rmult_lt_0_compat; lra). lra.
Qed.
Lemma row_0 b : row b 0 = 0.
Proof. unfold L_wedge.row. apply (RInt_point (V := R_CompleteNormedModule)). Qed.
Lemma row_limit b : {w | forall x, 0 <= x -> 0 <= w - row b x <= 3 * C * exp (- (1 * x))}.
Proof.
  destruct (completeness (fun y => exists u, 0 <= u /\ y = row b u)) as (w & U & M).
  - exists (3 * C). intros y (u & Hu & ->). assert (S := row_step b 0 u ltac:(lra)). rewrite row_0, Rmult_0_r, Ropp_0, exp_0 in S. lra.
  - exists (row b 0), 0. split; [lra|reflexivity].
  - exists w. intros u Hu. split.
    + assert (row b u <= w) by (apply U; exists u; split; [exact Hu|reflexivity]). lra.
    + assert (w <= row b u + 3 * C * exp (- (1 * u))); [|lra]. apply M. intros y (v & Hv & ->).
      destruct (Rle_dec u v) as [i|i].
      * assert (S := row_step b u v ltac:(lra)). lra.
      * assert (S := row_step b v u ltac:(lra)). assert (Q := exp_pos (- (1 * u))). assert (0 < C * exp (- (1 * u))) by (apply Rmult_lt_0_compat; lra). lra.
Qed.
(** the weight of half a line *)
Definition whole (b : R) : R := proj1_sig (row_limit b).
Lemma whole_near b x : 0 <= x -> 0 <= whole b - row b x <= 3 * C * exp (- (1 * x)).
Proof. exact (proj2_sig (row_limit b) x). Qed.
Lemma exp_small eps : 0 < eps -> exists M, 0 <= M /\ forall x, M <= x -> 3 * C * exp (- (1 * x)) < eps.
Proof.
  intro He. exists (3 * C / eps). assert (Q : 0 < 3 * C / eps) by (apply Rdiv_lt_0_compat; lra). split; [lra|]. intros x Hx.
  replace (- (1 * x)) with (- x) by ring. rewrite exp_Ropp. assert (T := exp_ineq1 x ltac:(lra)).
  apply Rmult_lt_reg_r with (exp x); [apply exp_pos|]. rewrite Rmult_assoc, Rinv_l by (apply Rgt_not_eq, exp_pos).
  assert (3 * C / eps * eps = 3 * C) by (field; lra). nra.
Qed.
Lemma half_row b : half (fun a => h (a * a + b * b)) (whole b).
Proof.
  exists (row b). split.
  - intros y _. apply (RInt_correct (V := R_CompleteNormedModule)), line_int, Ch.
  - intros eps He. destruct (exp_small eps He) as (M & M0 & HM). exists M. intros y Hy Hp. assert (W := whole_near b y Hp). specialize (HM y Hy).
    rewrite Rabs_minus_sym, Rabs_pos_eq; lra.
Qed.
Definition rf (x b s : R) : R := x * h (x * s * (x * s) + b * b).
Lemma rf_cont2 x b s : continuity_2d_pt (rf x) b s.
Proof.
  unfold rf. apply continuity_2d_pt_mult; [apply continuity_2d_pt_const|]. apply (continuity_1d_2d_pt_comp h (fun b s => x * s * (x * s) + b * b)).
  - apply continuity_pt_filterlim. apply Ch.
  - apply continuity_2d_pt_plus; [|apply continuity_2d_pt_mult; apply continuity_2d_pt_id1].
    apply continuity_2d_pt_mult; (apply continuity_2d_pt_mult; [apply continuity_2d_pt_const|apply continuity_2d_pt_id2]).
Qed.
Lemma rf_int x b : ex_RInt (rf x b) 0 1.
Proof.
  apply (ex_RInt_continuous (V := R_CompleteNormedModule)). intros z _. unfold rf.
  apply (continuous_mult (K := R_AbsRing) (fun _ => x)); [apply continuous_const|].
  apply (continuous_comp (fun s => x * s * (x * s) + b * b) h); [|apply Ch].
  apply (ex_derive_continuous (V := R_NormedModule) (fun s => x * s * (x * s) + b * b)). auto_derive. exact I.
Qed.
Lemma row_rf x b : RInt (rf x b) 0 1 = row b x.
Proof.
  assert (E : RInt (rf x b) 0 1 = RInt (fun s => scal x (h ((x * s + 0) * (x * s + 0) + b * b))) 0 1).
  { apply RInt_ext. intros s _. unfold rf, scal; cbn; unfold mult; cbn. rewrite Rplus_0_r. reflexivity. }
  rewrite E. unfold L_wedge.row.
  assert (K := RInt_comp_lin (V := R_CompleteNormedModule) (fun a => h (a * a + b * b)) x 0 0 1 (line_int h Ch _ _ _)).
  replace (x * 0 + 0) with 0 in K by ring. replace (x * 1 + 0) with x in K by ring. exact K.
Qed.
Lemma row_fix_cont x b : continuous (fun b => row b x) b.
Proof.
  apply (continuous_ext (fun b => RInt (rf x b) 0 1)); [intro; apply row_rf|].
  apply (cont_2d_int (rf x)); [intros s _; apply rf_cont2|intro; apply rf_int].
Qed.
Lemma whole_int y : ex_RInt whole 0 y.
Proof.
  destruct (filterlim_RInt (V := R_CompleteNormedModule) (fun x b => row b x) 0 y (Rbar_locally p_infty) _ whole (fun x => RInt (fun b => row b x) 0 y)) as (v & _ & H).
  - intro x. apply (RInt_correct (V := R_CompleteNormedModule)). apply (ex_RInt_continuous (V := R_CompleteNormedModule)). intros z _. apply row_fix_cont.
  - intros Q (eps & HQ). destruct (exp_small eps (cond_pos eps)) as (M & M0 & HM). exists M. intros x Hx. apply HQ. intro b.
    unfold ball; cbn; unfold AbsRing_ball, abs, minus, plus, opp; cbn. assert (W := whole_near b x ltac:(lra)). specialize (HM x ltac:(lra)).
    change (Rabs (row b x - whole b) < eps). rewrite Rabs_minus_sym, Rabs_pos_eq; lra.
  - exists v. exact H.
Qed.

Variable L : R.
Hypothesis HL : forall u, 0 <= u -> 0 <= L - Phi h u <= 4 * C * exp (- (1 / 4 * u)).
Lemma sector_half t : half (fun b => row b (b * t)) (L / 2 * atan t).
Proof.
  exists (P h t). split.
  - intros y _. apply row_int. exact Ch.
  - intros eps He. set (K := 2 * C * Rabs t + 1). assert (Kp : 0 < K) by (unfold K; assert (0 <= C * Rabs t) by (apply Rmult_le_pos; [lra|apply Rabs_pos]); lra).
    exists (4 * K / eps + 1). intros y Hy Hp. rewrite Rabs_minus_sym. eapply Rle_lt_trans; [apply (P_near h C Ch C0 L HL)|].
    assert (Q : 0 < 4 * K / eps) by (apply Rdiv_lt_0_compat; lra). assert (Y : 4 * K / eps < 1 / 4 * (y * y) * 4) by nra.
    assert (T := exp_ineq1 (1 / 4 * (y * y)) ltac:(nra)). rewrite exp_Ropp. assert (Ep := exp_pos (1 / 4 * (y * y))).
    replace (2 * C * / exp (1 / 4 * (y * y)) * Rabs t) with ((2 * C * Rabs t) * / exp (1 / 4 * (y * y))) by ring.
    apply Rmult_lt_reg_r with (exp (1 / 4 * (y * y))); [exact Ep|]. rewrite Rmult_assoc, Rinv_l by lra. rewrite Rmult_1_r.
    apply Rlt_trans with K; [unfold K; lra|]. assert (4 * K / eps * eps = 4 * K) by (field; lra). nra.
Qed.
(** most of a half line lies below a steep slope *)
Lemma steep t y : 0 < t -> 0 <= y -> 0 <= RInt whole 0 y - P h t y <= 3 * C / t.
Proof.
  intros Ht Hy. assert (I1 := RInt_correct (V := R_CompleteNormedModule) whole 0 y (whole_int y)). assert (I2 := row_int h Ch t y).
  assert (I3 := is_RInt_minus (V := R_NormedModule) _ _ _ _ _ _ I1 I2).
  assert (J : RInt (fun b => whole b - row b (b * t)) 0 y = RInt whole 0 y - P h t y) by (exact (is_RInt_unique (V := R_CompleteNormedModule) _ _ _ _ I3)).
  rewrite <- J. assert (X : ex_RInt (fun b => whole b - row b (b * t)) 0 y) by (eexists; exact I3). split.
  - apply RInt_ge_0; [exact Hy|exact X|]. intros b Hb. apply whole_near. nra.
  - assert (I := exp_int 0 y t ltac:(lra)). apply (is_RInt_scal (V := R_NormedModule) _ 0 y (3 * C)) in I. assert (J' := is_RInt_unique (V := R_CompleteNormedModule) _ _ _ _ I).
    apply Rle_trans with (3 * C * ((exp (- (t * 0)) - exp (- (t * y))) / t)).
    + apply Rle_trans with (RInt (fun y => scal (3 * C) (exp (- (t * y)))) 0 y); [|right; exact J']. apply RInt_le; [lra|exact X|eexists; exact I|].
      intros b Hb. assert (W := whole_near b (b * t) ltac:(nra)). change (whole b - row b (b * t) <= 3 * C * exp (- (t * b))). replace (t * b) with (1 * (b * t)) by ring. exact (proj2 W).
    + rewrite Rmult_0_r, Ropp_0, exp_0. assert (Q := exp_pos (- (t * y))). unfold Rdiv. rewrite <- Rmult_assoc. apply Rmult_le_compat_r; [left; apply Rinv_0_lt_compat; exact Ht|]. assert (0 < C * exp (- (t * y))) by (apply Rmult_lt_0_compat; lra). lra.
Qed.
Lemma whole_half : half whole (L / 2 * (PI / 2)).
Proof.
  exists (RInt whole 0). split; [intros y _; apply (RInt_correct (V := R_CompleteNormedModule)), whole_int|].
  intros eps He. assert (Lp : 0 <= L) by (apply (L_pos h C L HL)). assert (Pi := PI_RGT_0).
  set (d := Rmin (PI / 4) (eps / 2 / (L + 1))).
  assert (D : 0 < d <= PI / 4). { unfold d. split; [apply Rmin_glb_lt; [lra|]; apply Rdiv_lt_0_compat; lra|apply Rmin_l]. }
  assert (D2 : d * L < eps / 2).
  { assert (d <= eps / 2 / (L + 1)) by apply Rmin_r. apply Rle_lt_trans with (eps / 2 / (L + 1) * L); [apply Rmult_le_compat_r; assumption|].
    apply Rmult_lt_reg_r with (L + 1); [lra|]. replace (eps / 2 / (L + 1) * L * (L + 1)) with (eps / 2 * L) by (field; lra). nra. }
  set (t1 := tan (PI / 2 - d)). set (t := Rmax t1 (12 * C / eps + 1)).
  assert (Ht : t1 <= t /\ 12 * C / eps + 1 <= t) by (split; [apply Rmax_l|apply Rmax_r]).
  assert (Q : 0 < 12 * C / eps) by (apply Rdiv_lt_0_compat; lra). assert (T0 : 0 < t) by lra.
  assert (A1 : PI / 2 - d <= atan t).
  { replace (PI / 2 - d) with (atan t1) by (unfold t1; apply atan_tan; lra). destruct (proj1 Ht) as [i|i]; [left; apply atan_increasing; exact i|right; rewrite i; reflexivity]. }
  assert (A2 := proj2 (atan_bound t)).
  assert (T1 : 3 * C / t <= eps / 4).
  { apply Rmult_le_reg_r with t; [exact T0|]. replace (3 * C / t * t) with (3 * C) by (field; lra). assert (12 * C / eps * eps = 12 * C) by (field; lra). nra. }
  destruct (sector_half t) as (B & B1 & B2). destruct (B2 (eps / 4) ltac:(lra)) as (M & HM). exists M. intros y Hy Hp. specialize (HM y Hy Hp).
  assert (EB : B y = P h t y). { assert (I2 := row_int h Ch t y). rewrite <- (is_RInt_unique _ _ _ _ I2). symmetry. apply is_RInt_unique. apply B1. exact Hp. }
  rewrite EB in HM. assert (S := steep t y T0 Hp).
  apply Rabs_def2 in HM. assert (L / 2 * (PI / 2 - d) <= L / 2 * atan t) by (apply Rmult_le_compat_l; lra). assert (L / 2 * atan t <= L / 2 * (PI / 2)) by (apply Rmult_le_compat_l; lra).
  apply Rabs_def1; lra.
Qed.
End Radial.
