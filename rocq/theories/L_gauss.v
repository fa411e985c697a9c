(** * The Gaussian integral *)
From Coq Require Import Reals Lra Lia Psatz.
From Coquelicot Require Import Coquelicot.
Open Scope R_scope.

Definition bell (x : R) : R := exp (- (x * x)).
Definition G (x : R) : R := RInt bell 0 x.
Definition hf (x t : R) : R := exp (- (x * x * (1 + t * t))) / (1 + t * t).
Definition H (x : R) : R := RInt (hf x) 0 1.

Lemma one_sq t : 0 < 1 + t * t. Proof. assert (Q := Rle_0_sqr t). unfold Rsqr in Q. lra. Qed.
Lemma bell_cont x : continuous bell x.
Proof. apply (ex_derive_continuous (V := R_NormedModule)). unfold bell. auto_derive. exact I. Qed.
Lemma bell_int a b : ex_RInt bell a b.
Proof. apply (ex_RInt_continuous (V := R_CompleteNormedModule)). intros z _. apply bell_cont. Qed.
Lemma G_derive x : is_derive G x (bell x).
Proof.
  apply (is_derive_RInt bell G 0 x); [|apply bell_cont]. apply filter_forall. intro y. apply (RInt_correct bell 0 y). apply bell_int.
Qed.
Lemma hf_cont x t : continuous (hf x) t.
Proof. apply (ex_derive_continuous (V := R_NormedModule)). unfold hf. auto_derive. assert (Q := one_sq t). lra. Qed.
Lemma hf_int x a b : ex_RInt (hf x) a b.
Proof. apply (ex_RInt_continuous (V := R_CompleteNormedModule)). intros z _. apply hf_cont. Qed.
Definition dh (x t : R) : R := - (2 * x) * exp (- (x * x * (1 + t * t))).
Lemma hf_derive x t : is_derive (fun u => hf u t) x (dh x t).
Proof. unfold hf, dh. assert (Q := one_sq t). auto_derive; [lra|]. field. lra. Qed.
Lemma dh_cont x t : continuity_2d_pt dh x t.
Proof.
  unfold dh. apply continuity_2d_pt_mult.
  - apply (continuity_1d_2d_pt_comp (fun v => - (2 * v)) (fun u _ => u)); [|apply continuity_2d_pt_id1].
    apply continuity_pt_filterlim. apply (ex_derive_continuous (V := R_NormedModule) (fun v => - (2 * v))). auto_derive. exact I.
  - apply (continuity_1d_2d_pt_comp exp (fun u v => - (u * u * (1 + v * v)))).
    + apply derivable_continuous_pt. apply derivable_pt_exp.
    + apply (continuity_2d_pt_opp (fun u v => u * u * (1 + v * v))). apply continuity_2d_pt_mult; [apply continuity_2d_pt_mult; apply continuity_2d_pt_id1|].
      apply continuity_2d_pt_plus; [apply continuity_2d_pt_const|]. apply continuity_2d_pt_mult; apply continuity_2d_pt_id2.
Qed.

Lemma H_derive x : is_derive H x (RInt (dh x) 0 1).
Proof.
  assert (D : is_derive (fun x => RInt (fun t => hf x t) 0 1) x (RInt (fun t => Derive (fun u => hf u t) x) 0 1)).
  { apply is_derive_RInt_param.
    - apply filter_forall. intros y t _. exists (dh y t). apply hf_derive.
    - intros t _. apply (continuity_2d_pt_ext dh); [|apply dh_cont]. intros u v. symmetry. apply is_derive_unique. apply hf_derive.
    - apply filter_forall. intro y. apply hf_int. }
  replace (RInt (dh x) 0 1) with (RInt (fun t => Derive (fun u => hf u t) x) 0 1); [exact D|].
  apply RInt_ext. intros t _. apply is_derive_unique. apply hf_derive.
Qed.
(* the derivative of [H] in closed form *)
Lemma dh_value x : RInt (dh x) 0 1 = - (2 * bell x) * G x.
Proof.
  assert (E : RInt (dh x) 0 1 = RInt (fun t => scal (- (2 * bell x)) (scal x (bell (x * t + 0)))) 0 1).
  { apply RInt_ext. intros t _. unfold dh, scal; cbn; unfold mult; cbn. unfold bell.
    replace (- (x * x * (1 + t * t))) with (- (x * x) + - ((x * t + 0) * (x * t + 0))) by ring. rewrite exp_plus. ring. }
  assert (C := RInt_comp_lin (V := R_CompleteNormedModule) bell x 0 0 1 (bell_int _ _)).
  replace (x * 0 + 0) with 0 in C by ring. replace (x * 1 + 0) with x in C by ring.
  rewrite E. apply (is_RInt_unique (V := R_CompleteNormedModule)).
  apply (is_RInt_scal (V := R_NormedModule) (fun t => scal x (bell (x * t + 0))) 0 1 (- (2 * bell x)) (G x)).
  unfold G. rewrite <- C. apply (RInt_correct (V := R_CompleteNormedModule)).
  apply (ex_RInt_comp_lin (V := R_NormedModule) bell x 0 0 1). apply bell_int.
Qed.
Lemma sum_derive x : is_derive (fun y => G y * G y + H y) x 0.
Proof.
  assert (D1 := G_derive x). assert (D2 := H_derive x). rewrite dh_value in D2.
  assert (X1 : ex_derive G x) by (exists (bell x); exact D1). assert (X2 : ex_derive H x) by (eexists; exact D2).
  auto_derive; [auto|]. replace (Derive (fun x0 => G x0) x) with (bell x) by (symmetry; apply is_derive_unique; exact D1).
  replace (Derive (fun x0 => H x0) x) with (- (2 * bell x) * G x) by (symmetry; apply is_derive_unique; exact D2). ring.
Qed.
Lemma G0 : G 0 = 0. Proof. unfold G. apply (RInt_point (V := R_CompleteNormedModule)). Qed.
Lemma H0 : H 0 = PI / 4.
Proof.
  unfold H. apply (is_RInt_unique (V := R_CompleteNormedModule)).
  replace (PI / 4) with (minus (atan 1) (atan 0)).
  - apply (is_RInt_derive (V := R_CompleteNormedModule) atan).
    + intros t _. assert (Q := one_sq t). unfold hf. replace (- (0 * 0 * (1 + t * t))) with 0 by ring. rewrite exp_0.
      replace (1 / (1 + t * t)) with (/ (1 + t ^ 2)) by (field; assert (W : t ^ 2 = t * t) by ring; lra).
      apply is_derive_Reals. apply derivable_pt_lim_atan.
    + intros t _. apply hf_cont.
  - rewrite atan_1, atan_0. unfold minus, plus, opp; cbn. lra.
Qed.
Lemma sum_const x : G x * G x + H x = PI / 4.
Proof.
  rewrite <- H0. replace (H 0) with (G 0 * G 0 + H 0) by (rewrite G0; ring).
  destruct (MVT_gen (fun y => G y * G y + H y) 0 x (fun _ => 0)) as (c & _ & E).
  - intros y _. apply sum_derive.
  - intros y _. apply continuity_pt_filterlim. apply (ex_derive_continuous (V := R_NormedModule) (fun y => G y * G y + H y)). exists 0. apply sum_derive.
  - cbv beta in E. rewrite Rmult_0_l in E. lra.
Qed.
Lemma H_bounds x : 0 <= H x <= bell x.
Proof.
  split.
  - apply RInt_ge_0; [lra|apply hf_int|]. intros t _. unfold hf. assert (Q := one_sq t).
    apply Rmult_le_pos; [left; apply exp_pos|left; apply Rinv_0_lt_compat; exact Q].
  - replace (bell x) with (RInt (fun _ => bell x) 0 1).
    + apply RInt_le; [lra|apply hf_int|apply ex_RInt_const|]. intros t _. unfold hf, bell. assert (Q := one_sq t).
      assert (T := Rle_0_sqr t). unfold Rsqr in T. assert (X := Rle_0_sqr x). unfold Rsqr in X.
      apply Rle_trans with (exp (- (x * x * (1 + t * t)))).
      { apply Rmult_le_reg_r with (1 + t * t); [exact Q|]. unfold Rdiv. rewrite Rmult_assoc, Rinv_l by lra.
        assert (P := exp_pos (- (x * x * (1 + t * t)))). nra. }
      { assert (W := Rmult_le_pos _ _ X T). destruct (Req_dec (x * x * (t * t)) 0) as [i1|i1].
        - right. f_equal. lra.
        - left. apply exp_increasing. lra. }
    + rewrite (RInt_const (V := R_CompleteNormedModule)). unfold scal; cbn; unfold mult; cbn. ring.
Qed.
Lemma G_pos x : 0 <= x -> 0 <= G x.
Proof. intro h. apply RInt_ge_0; [exact h|apply bell_int|]. intros t _. left. apply exp_pos. Qed.
(* how far [G] is from its limit *)
Lemma G_near x : 0 < x -> 0 <= sqrt PI / 2 - G x <= bell x * (2 / sqrt PI).
Proof.
  intro h. assert (E := sum_const x). assert (B := H_bounds x). assert (P := G_pos x (Rlt_le _ _ h)).
  assert (Sp : 0 < sqrt PI) by (apply sqrt_lt_R0; apply PI_RGT_0).
  assert (Sq : sqrt PI * sqrt PI = PI) by (apply sqrt_sqrt; left; apply PI_RGT_0).
  set (s := sqrt PI / 2). assert (Es : s * s = PI / 4) by (unfold s; lra). assert (s0 : 0 < s) by (unfold s; lra).
  assert (F : (s - G x) * (s + G x) = H x) by nra.
  assert (W : 0 <= s - G x) by (apply Rmult_le_reg_r with (s + G x); lra).
  split; [exact W|]. replace (2 / sqrt PI) with (/ s) by (unfold s; field; lra).
  apply Rmult_le_reg_r with s; [exact s0|]. rewrite Rmult_assoc, Rinv_l by lra. nra.
Qed.
Lemma bell_small x : 0 < x -> bell x < / (x * x).
Proof.
  intro h. unfold bell. rewrite exp_Ropp. assert (Q : 0 < x * x) by nra. assert (T := exp_ineq1 (x * x)).
  apply Rinv_lt_contravar; [apply Rmult_lt_0_compat; [exact Q|apply exp_pos]|]. specialize (T ltac:(lra)). lra.
Qed.
