(** * The weight of a sector of the plane when the weight depends on the distance from the origin only *)
From Coq Require Import Reals Lra Lia Psatz.
From Coquelicot Require Import Coquelicot.
From Verif Require Import L_real L_area L_prior.
Open Scope R_scope.

Lemma exp_int a b c : c <> 0 -> is_RInt (fun u => exp (- (c * u))) a b ((exp (- (c * a)) - exp (- (c * b))) / c).
Proof.
  intro Hc. replace ((exp (- (c * a)) - exp (- (c * b))) / c) with (minus (- exp (- (c * b)) / c) (- exp (- (c * a)) / c)) by (unfold minus, plus, opp; cbn; field; exact Hc).
  apply (is_RInt_derive (V := R_CompleteNormedModule) (fun u => - exp (- (c * u)) / c)).
  - intros x _. auto_derive; [exact I|]. field. exact Hc.
  - intros x _. apply (ex_derive_continuous (V := R_NormedModule) (fun u => exp (- (c * u)))). auto_derive. exact I.
Qed.

Section Radial.
Variable h : R -> R.
Variable C : R.
Hypothesis Ch : forall u, continuous h u.
Hypothesis C0 : 0 < C.
Hypothesis Bh : forall u, 0 <= u -> 0 <= h u <= C * exp (- (1 / 4 * u)).

Definition Phi (u : R) : R := RInt h 0 u.
Lemma h_int a b : ex_RInt h a b.
Proof. apply (ex_RInt_continuous (V := R_CompleteNormedModule)). intros z _. apply Ch. Qed.
Lemma Phi_derive u : is_derive Phi u (h u).
Proof. apply (is_derive_RInt h Phi 0 u); [|apply Ch]. apply filter_forall. intro y. apply (RInt_correct h 0 y). apply h_int. Qed.
Lemma Phi_cont u : continuous Phi u.
Proof. apply (ex_derive_continuous (V := R_NormedModule) Phi). exists (h u). apply Phi_derive. Qed.
Lemma Phi_0 : Phi 0 = 0.
Proof. unfold Phi. apply (RInt_point (V := R_CompleteNormedModule)). Qed.
Lemma Phi_step u v : 0 <= u <= v -> 0 <= Phi v - Phi u <= 4 * C * exp (- (1 / 4 * u)).
Proof.
  intro H. assert (E : Phi v - Phi u = RInt h u v).
  { unfold Phi. rewrite <- (RInt_Chasles h 0 u v) by apply h_int. unfold plus; cbn. ring. }
  rewrite E. split.
  - apply RInt_ge_0; [lra|apply h_int|]. intros x Hx. apply Bh. lra.
  - assert (I := exp_int u v (1 / 4) ltac:(lra)). apply (is_RInt_scal (V := R_NormedModule) _ u v C) in I.
    assert (J := is_RInt_unique (V := R_CompleteNormedModule) _ _ _ _ I). apply Rle_trans with (C * ((exp (- (1 / 4 * u)) - exp (- (1 / 4 * v))) / (1 / 4))).
    + apply Rle_trans with (RInt (fun y => scal C (exp (- (1 / 4 * y)))) u v); [|right; exact J]. apply RInt_le; [lra|apply h_int|eexists; exact I|]. intros x Hx. apply Bh. lra.
    + assert (Q := exp_pos (- (1 / 4 * v))). assert (C * exp (- (1 / 4 * v)) > 0) by (apply Rmult_lt_0_compat; lra). lra.
Qed.
Lemma Phi_limit : exists L, forall u, 0 <= u -> 0 <= L - Phi u <= 4 * C * exp (- (1 / 4 * u)).
Proof.
  destruct (completeness (fun y => exists u, 0 <= u /\ y = Phi u)) as (L & U & M).
  - exists (4 * C). intros y (u & Hu & ->). assert (S := Phi_step 0 u ltac:(lra)). rewrite Phi_0, Rmult_0_r, Ropp_0, exp_0 in S. lra.
  - exists (Phi 0), 0. split; [lra|reflexivity].
  - exists L. intros u Hu. split.
    + assert (Phi u <= L) by (apply U; exists u; split; [exact Hu|reflexivity]). lra.
    + assert (L <= Phi u + 4 * C * exp (- (1 / 4 * u))); [|lra]. apply M. intros y (v & Hv & ->).
      destruct (Rle_dec u v) as [i|i].
      * assert (S := Phi_step u v ltac:(lra)). lra.
      * assert (S := Phi_step v u ltac:(lra)). assert (P := exp_pos (- (1 / 4 * u))). assert (0 < C * exp (- (1 / 4 * u))) by (apply Rmult_lt_0_compat; lra). lra.
Qed.

(** the weight of the sector between the axis and slope t up to height y *)
Definition tilt (t s : R) : R := 1 + t * t * (s * s).
Lemma tilt_pos t s : 1 <= tilt t s.
Proof. unfold tilt. assert (A := Rle_0_sqr t). assert (B := Rle_0_sqr s). unfold Rsqr in *. nra. Qed.
Definition pf (t y s : R) : R := t * (Phi (y * y * tilt t s) / (2 * tilt t s)).
Definition dpf (t y s : R) : R := t * y * h (y * y * tilt t s).
Definition P (t y : R) : R := RInt (pf t y) 0 1.
Lemma pf_cont t y s : continuous (pf t y) s.
Proof.
  unfold pf. apply (continuous_mult (K := R_AbsRing) (fun _ => t)); [apply continuous_const|].
  apply (continuous_mult (K := R_AbsRing) (fun s => Phi (y * y * tilt t s)) (fun s => / (2 * tilt t s))).
  - apply (continuous_comp (fun s => y * y * tilt t s) Phi); [|apply Phi_cont].
    apply (ex_derive_continuous (V := R_NormedModule) (fun s => y * y * tilt t s)). unfold tilt. auto_derive. exact I.
  - apply (ex_derive_continuous (V := R_NormedModule) (fun s => / (2 * tilt t s))). assert (T := tilt_pos t s). unfold tilt in *. auto_derive. lra.
Qed.
Lemma pf_int t y : ex_RInt (pf t y) 0 1.
Proof. apply (ex_RInt_continuous (V := R_CompleteNormedModule)). intros z _. apply pf_cont. Qed.
Lemma pf_derive t y s : is_derive (fun y => pf t y s) y (dpf t y s).
Proof.
  unfold pf, dpf. assert (T := tilt_pos t s). assert (D := Phi_derive (y * y * tilt t s)). set (w := tilt t s) in *. clearbody w.
  auto_derive; [eexists; exact D|]. replace (Derive (fun x => Phi x) (y * y * w)) with (h (y * y * w)) by (symmetry; apply is_derive_unique; exact D). field. lra.
Qed.
Lemma dpf_cont t y s : continuity_2d_pt (dpf t) y s.
Proof.
  unfold dpf. apply continuity_2d_pt_mult.
  - apply (continuity_1d_2d_pt_comp (fun v => t * v) (fun u _ => u)); [|apply continuity_2d_pt_id1].
    apply continuity_pt_filterlim. apply (ex_derive_continuous (V := R_NormedModule) (fun v => t * v)). auto_derive. exact I.
  - apply (continuity_1d_2d_pt_comp h (fun u v => u * u * tilt t v)).
    + apply continuity_pt_filterlim. apply Ch.
    + apply continuity_2d_pt_mult; [apply continuity_2d_pt_mult; apply continuity_2d_pt_id1|].
      apply (continuity_1d_2d_pt_comp (tilt t) (fun _ v => v)); [|apply continuity_2d_pt_id2].
      apply continuity_pt_filterlim. apply (ex_derive_continuous (V := R_NormedModule) (tilt t)). unfold tilt. auto_derive. exact I.
Qed.
Lemma dpf_int t y : ex_RInt (dpf t y) 0 1.
Proof.
  apply (ex_RInt_continuous (V := R_CompleteNormedModule)). intros z _. unfold dpf.
  apply (continuous_mult (K := R_AbsRing) (fun _ => t * y)); [apply continuous_const|].
  apply (continuous_comp (fun s => y * y * tilt t s) h); [|apply Ch].
  apply (ex_derive_continuous (V := R_NormedModule) (fun s => y * y * tilt t s)). unfold tilt. auto_derive. exact I.
Qed.
Lemma P_derive t y : is_derive (P t) y (RInt (dpf t y) 0 1).
Proof.
  assert (D : is_derive (fun x => RInt (fun s => pf t x s) 0 1) y (RInt (fun s => Derive (fun u => pf t u s) y) 0 1)).
  { apply is_derive_RInt_param.
    - apply filter_forall. intros x s _. exists (dpf t x s). apply pf_derive.
    - intros s _. apply (continuity_2d_pt_ext (dpf t)); [|apply dpf_cont]. intros u v. symmetry. apply is_derive_unique. apply pf_derive.
    - apply filter_forall. intro x. apply pf_int. }
  replace (RInt (dpf t y) 0 1) with (RInt (fun s => Derive (fun u => pf t u s) y) 0 1); [exact D|].
  apply RInt_ext. intros s _. apply is_derive_unique. apply pf_derive.
Qed.
(** the weight of a horizontal line up to x *)
Definition row (b x : R) : R := RInt (fun a => h (a * a + b * b)) 0 x.
Lemma line_cont b a : continuous (fun a => h (a * a + b * b)) a.
Proof.
  apply (continuous_comp (fun a => a * a + b * b) h); [|apply Ch].
  apply (ex_derive_continuous (V := R_NormedModule) (fun a => a * a + b * b)). auto_derive. exact I.
Qed.
Lemma line_int b x y : ex_RInt (fun a => h (a * a + b * b)) x y.
Proof. apply (ex_RInt_continuous (V := R_CompleteNormedModule)). intros z _. apply line_cont. Qed.
Lemma dpf_value t y : RInt (dpf t y) 0 1 = row y (y * t).
Proof.
  assert (E : RInt (dpf t y) 0 1 = RInt (fun s => scal (y * t) (h ((y * t * s + 0) * (y * t * s + 0) + y * y))) 0 1).
  { apply RInt_ext. intros s _. unfold dpf, tilt, scal; cbn; unfold mult; cbn.
    replace ((y * t * s + 0) * (y * t * s + 0) + y * y) with (y * y * (1 + t * t * (s * s))) by ring. ring. }
  rewrite E. unfold row.
  assert (K := RInt_comp_lin (V := R_CompleteNormedModule) (fun a => h (a * a + y * y)) (y * t) 0 0 1 (line_int _ _ _)).
  replace (y * t * 0 + 0) with 0 in K by ring. replace (y * t * 1 + 0) with (y * t) in K by ring. exact K.
Qed.
Lemma row_cont t b : continuous (fun b => row b (b * t)) b.
Proof.
  apply (continuous_ext (fun b => RInt (dpf t b) 0 1)); [intro x; apply dpf_value|].
  apply (cont_2d_int (dpf t)); [intros s _; apply dpf_cont|intro; apply dpf_int].
Qed.
Lemma P_zero t : P t 0 = 0.
Proof.
  unfold P. rewrite (RInt_ext _ (fun _ => 0)).
  - rewrite (RInt_const (V := R_CompleteNormedModule)). unfold scal; cbn; unfold mult; cbn. ring.
  - intros s _. unfold pf. replace (0 * 0 * tilt t s) with 0 by ring. rewrite Phi_0. unfold Rdiv. eqR. ring.
Qed.
Lemma row_int t y : is_RInt (fun b => row b (b * t)) 0 y (P t y).
Proof.
  replace (P t y) with (minus (P t y) (P t 0)) by (rewrite P_zero; unfold minus, plus, opp; cbn; ring).
  apply (is_RInt_derive (V := R_CompleteNormedModule) (P t)).
  - intros x _. rewrite <- dpf_value. apply P_derive.
  - intros x _. apply row_cont.
Qed.

Lemma atan_int t : is_RInt (fun s => t * / tilt t s) 0 1 (atan t).
Proof.
  replace (atan t) with (minus (atan (t * 1)) (atan (t * 0))) by (rewrite Rmult_1_r, Rmult_0_r, atan_0; unfold minus, plus, opp; cbn; ring).
  apply (is_RInt_derive (V := R_CompleteNormedModule) (fun s => atan (t * s))).
  - intros s _. assert (T := tilt_pos t s). unfold tilt in *. auto_derive; [exact I|]. field. lra.
  - intros s _. assert (T := tilt_pos t s). apply (ex_derive_continuous (V := R_NormedModule) (fun s => t * / tilt t s)). unfold tilt in *. auto_derive. lra.
Qed.

Variable L : R.
Hypothesis HL : forall u, 0 <= u -> 0 <= L - Phi u <= 4 * C * exp (- (1 / 4 * u)).
Lemma L_pos : 0 <= L.
Proof. assert (H := HL 0 ltac:(lra)). rewrite Phi_0 in H. lra. Qed.
Lemma P_near t y : Rabs (L / 2 * atan t - P t y) <= 2 * C * exp (- (1 / 4 * (y * y))) * Rabs t.
Proof.
  assert (I1 := atan_int t). apply (is_RInt_scal (V := R_NormedModule) _ 0 1 (L / 2)) in I1.
  assert (I2 := RInt_correct (pf t y) 0 1 (pf_int t y)). fold (P t y) in I2.
  assert (I3 := is_RInt_minus (V := R_NormedModule) _ _ _ _ _ _ I1 I2).
  assert (Y := Rle_0_sqr y). unfold Rsqr in Y.
  assert (J := is_RInt_unique (V := R_CompleteNormedModule) _ _ _ _ I3).
  replace (L / 2 * atan t - P t y) with (RInt (fun x => minus (scal (L / 2) (t * / tilt t x)) (pf t y x)) 0 1) by (etransitivity; [exact J|unfold minus, plus, opp, scal; cbn; unfold mult; cbn; ring]).
  replace (2 * C * exp (- (1 / 4 * (y * y))) * Rabs t) with ((1 - 0) * (2 * C * exp (- (1 / 4 * (y * y))) * Rabs t)) by ring.
  apply abs_RInt_le_const; [lra|eexists; exact I3|]. intros s _.
  assert (T := tilt_pos t s). unfold minus, plus, opp, scal; cbn; unfold mult; cbn. unfold pf.
  assert (Q : 0 <= y * y * tilt t s) by (apply Rmult_le_pos; lra). assert (B := HL _ Q).
  replace (L / 2 * (t * / tilt t s) + - (t * (Phi (y * y * tilt t s) / (2 * tilt t s)))) with (t * ((L - Phi (y * y * tilt t s)) / 2 * / tilt t s)) by (field; lra).
  rewrite Rabs_mult, Rmult_comm. apply Rmult_le_compat_r; [apply Rabs_pos|].
  assert (E : exp (- (1 / 4 * (y * y * tilt t s))) <= exp (- (1 / 4 * (y * y)))).
  { destruct (Req_dec (y * y * tilt t s) (y * y)) as [->|N]; [right; reflexivity|]. left. apply exp_increasing. assert (y * y * 1 <= y * y * tilt t s) by (apply Rmult_le_compat_l; lra). lra. }
  assert (IT : 0 < / tilt t s <= 1). { split; [apply Rinv_0_lt_compat; lra|]. rewrite <- Rinv_1. apply Rinv_le_contravar; lra. }
  rewrite Rabs_pos_eq by (apply Rmult_le_pos; lra).
  assert (K : C * exp (- (1 / 4 * (y * y * tilt t s))) <= C * exp (- (1 / 4 * (y * y)))) by (apply Rmult_le_compat_l; lra).
  apply Rle_trans with ((L - Phi (y * y * tilt t s)) / 2 * 1); [apply Rmult_le_compat_l; lra|]. lra.
Qed.
End Radial.
