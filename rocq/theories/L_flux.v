(** * The visible flux *)
From Coq Require Import Reals Lra Lia Psatz.
From Coquelicot Require Import Coquelicot.
From Verif Require Import Num CoreOps Inst CoreFlux.
Open Scope R_scope.

(** ** acos *)
Lemma acos_out1 x : 1 <= x -> acos x = 0.
Proof. intro H. unfold acos. destruct (Rle_dec x (-1)); [lra|]. destruct (Rle_dec 1 x); [reflexivity|contradiction]. Qed.
Lemma acos_outm1 x : x <= -1 -> acos x = PI.
Proof. intro H. unfold acos. destruct (Rle_dec x (-1)); [reflexivity|contradiction]. Qed.
Lemma acos_lt_cos x a : 0 <= a <= PI -> cos a < x -> acos x <= a.
Proof.
  intros Ha H. destruct (Rle_dec 1 x) as [|Hx]; [rewrite acos_out1; lra|]. assert (B := COS_bound a). assert (Q := acos_bound x).
  destruct (Rle_lt_dec (acos x) a); [assumption|]. exfalso. assert (C := cos_acos x ltac:(lra)).
  assert (cos (acos x) < cos a) by (apply cos_decreasing_1; lra). lra.
Qed.
Lemma acos_gt_cos x a : 0 <= a <= PI -> x < cos a -> a <= acos x.
Proof.
  intros Ha H. destruct (Rle_dec x (-1)) as [|Hx]; [rewrite acos_outm1; lra|]. assert (B := COS_bound a). assert (Q := acos_bound x).
  destruct (Rle_lt_dec a (acos x)); [assumption|]. exfalso. assert (C := cos_acos x ltac:(lra)).
  assert (cos a < cos (acos x)) by (apply cos_decreasing_1; lra). lra.
Qed.
Lemma acos_cont x : continuous acos x.
Proof.
  apply continuity_pt_filterlim. intros eps Heps. assert (Hpi := PI_RGT_0).
  assert (Q := acos_bound x).
  (* upper side *)
  assert (U : exists d, 0 < d /\ forall y, Rabs (y - x) < d -> acos y < acos x + eps).
  { destruct (Rlt_dec (acos x + eps / 2) PI) as [H|H].
    - set (a := acos x + eps / 2) in *.
      assert (Hc : cos a < x).
      { destruct (Rle_dec 1 x) as [h|h].
        - destruct (Rle_lt_dec x (cos a)); [|assumption]. exfalso. assert (B := COS_bound a). assert (cos a = 1) by lra.
          assert (cos a < cos 0) by (apply cos_decreasing_1; unfold a in *; lra). rewrite cos_0 in *. lra.
        - destruct (Rle_dec x (-1)) as [h'|h']; [exfalso; unfold a in H; rewrite acos_outm1 in H; lra|].
          rewrite <- (cos_acos x) by lra. apply cos_decreasing_1; unfold a in *; lra. }
      exists (x - cos a). split; [lra|]. intros y Hy. assert (cos a < y) by (destruct (Rcase_abs (y - x)); unfold Rabs in Hy; destruct (Rcase_abs (y - x)); lra).
      assert (acos y <= a) by (apply acos_lt_cos; [unfold a in *; lra|assumption]). unfold a in *. lra.
    - exists 1. split; [lra|]. intros y _. assert (B := acos_bound y). lra. }
  assert (L : exists d, 0 < d /\ forall y, Rabs (y - x) < d -> acos x - eps < acos y).
  { destruct (Rlt_dec 0 (acos x - eps / 2)) as [H|H].
    - set (a := acos x - eps / 2) in *.
      assert (Hc : x < cos a).
      { destruct (Rle_dec x (-1)) as [h|h].
        - destruct (Rle_lt_dec (cos a) x); [|assumption]. exfalso. assert (B := COS_bound a). assert (cos a = -1) by lra.
          assert (cos PI < cos a) by (apply cos_decreasing_1; unfold a in *; lra). rewrite cos_PI in *. lra.
        - destruct (Rle_dec 1 x) as [h'|h']; [exfalso; unfold a in H; rewrite acos_out1 in H; lra|].
          rewrite <- (cos_acos x) by lra. apply cos_decreasing_1; unfold a in *; lra. }
      exists (cos a - x). split; [lra|]. intros y Hy. assert (y < cos a) by (unfold Rabs in Hy; destruct (Rcase_abs (y - x)); lra).
      assert (a <= acos y) by (apply acos_gt_cos; [unfold a in *; lra|assumption]). unfold a in *. lra.
    - exists 1. split; [lra|]. intros y _. assert (B := acos_bound y). lra. }
  destruct U as (d1 & D1 & U). destruct L as (d2 & D2 & L). exists (Rmin d1 d2). split; [apply Rlt_gt, Rmin_glb_lt; assumption|].
  intros y [_ Hy]. cbn in *. unfold R_dist in *. assert (M1 := Rmin_l d1 d2). assert (M2 := Rmin_r d1 d2).
  assert (A := U y ltac:(lra)). assert (B := L y ltac:(lra)). apply Rabs_def1; lra.
Qed.

(** ** the hidden angle *)
Lemma hidden_acos b r rho : 0 < b -> 0 <= r -> 0 < rho -> hidden_angle b r rho = 2 * acos ((rho * rho + b * b - r * r) / (2 * rho * b)).
Proof.
  intros Hb Hr Hrho. assert (D : 0 < 2 * rho * b) by nra. unfold hidden_angle.
  destruct (Rle_dec (rho + b) r) as [H|H].
  - rewrite acos_outm1; [reflexivity|]. apply Rmult_le_reg_r with (2 * rho * b); [exact D|]. replace ((rho * rho + b * b - r * r) / (2 * rho * b) * (2 * rho * b)) with (rho * rho + b * b - r * r) by (field; lra). nra.
  - destruct (Rle_dec r (Rabs (rho - b))) as [H'|H']; [|reflexivity].
    assert (r * r <= (rho - b) * (rho - b)). { unfold Rabs in H'. destruct (Rcase_abs (rho - b)); nra. }
    rewrite acos_out1; [ring|]. apply Rmult_le_reg_r with (2 * rho * b); [exact D|]. replace ((rho * rho + b * b - r * r) / (2 * rho * b) * (2 * rho * b)) with (rho * rho + b * b - r * r) by (field; lra). nra.
Qed.
Lemma hidden_bounds b r rho : 0 <= hidden_angle b r rho <= 2 * PI.
Proof.
  assert (Hpi := PI_RGT_0). unfold hidden_angle. destruct (Rle_dec _ _); [lra|]. destruct (Rle_dec _ _); [lra|].
  match goal with |- context [acos ?x] => assert (Q := acos_bound x) end. lra.
Qed.
Lemma visible_bounds b r rho : 0 <= visible_angle b r rho <= 2 * PI.
Proof. unfold visible_angle. generalize (hidden_bounds b r rho). lra. Qed.

(** what the definition means: at the angle phi the dark disk covers the point at
    distance rho iff phi is below half the hidden angle *)
Lemma hidden_spec b r rho phi : 0 <= b -> 0 <= r -> 0 < rho -> 0 <= phi <= PI ->
  let d2 := (rho * cos phi - b) * (rho * cos phi - b) + rho * sin phi * (rho * sin phi) in
  (d2 < r * r -> phi <= hidden_angle b r rho / 2) /\ (phi < hidden_angle b r rho / 2 -> d2 <= r * r).
Proof.
  intros Hb Hr Hrho Hphi. cbv zeta. assert (T := sin2_cos2 phi). unfold Rsqr in T.
  assert (E : (rho * cos phi - b) * (rho * cos phi - b) + rho * sin phi * (rho * sin phi) = rho * rho + b * b - 2 * rho * b * cos phi).
  { replace ((rho * cos phi - b) * (rho * cos phi - b) + rho * sin phi * (rho * sin phi))
      with (rho * rho * (sin phi * sin phi + cos phi * cos phi) + b * b - 2 * rho * b * cos phi) by ring. rewrite T. ring. }
  rewrite E. clear E T. destruct (Rle_lt_or_eq_dec 0 b Hb) as [Hb'|Hb'].
  - rewrite (hidden_acos b r rho Hb' Hr Hrho). set (K := (rho * rho + b * b - r * r) / (2 * rho * b)). assert (D : 0 < 2 * rho * b) by nra.
    assert (EK : K * (2 * rho * b) = rho * rho + b * b - r * r) by (unfold K; field; lra).
    replace (2 * acos K / 2) with (acos K) by lra. split; intro H.
    + apply acos_gt_cos; [exact Hphi|]. apply Rmult_lt_reg_r with (2 * rho * b); [exact D|]. nra.
    + destruct (Rle_dec (K * (2 * rho * b)) (cos phi * (2 * rho * b))); [nra|]. exfalso.
      assert (cos phi < K) by (apply Rmult_lt_reg_r with (2 * rho * b); [exact D|lra]). assert (acos K <= phi) by (apply acos_lt_cos; assumption). lra.
  - subst b. unfold hidden_angle. rewrite Rplus_0_r, Rminus_0_r, (Rabs_pos_eq rho) by lra. assert (Hpi := PI_RGT_0).
    destruct (Rle_dec rho r); [split; intros; nra|]. destruct (Rle_dec r rho); [split; intros; nra|lra].
Qed.

Lemma visible_out b r rho : 0 <= r -> 1 + r <= b -> 0 <= rho <= 1 -> visible_angle b r rho = 2 * PI.
Proof.
  intros Hr Hb Hrho. unfold visible_angle, hidden_angle. destruct (Rle_dec (rho + b) r); [lra|].
  destruct (Rle_dec r (Rabs (rho - b))) as [H|H]; [ring|]. exfalso. apply H. rewrite Rabs_left1 by lra. lra.
Qed.
Lemma visible_covered b r rho : 1 + b <= r -> rho <= 1 -> visible_angle b r rho = 0.
Proof. intros Hr Hrho. unfold visible_angle, hidden_angle. destruct (Rle_dec (rho + b) r); [ring|lra]. Qed.

(** ** integrability *)
Lemma mu_cont rho : continuous mu_of rho.
Proof.
  unfold mu_of. apply (continuous_comp (fun rho => 1 - rho * rho) sqrt); [|apply continuous_sqrt].
  apply (ex_derive_continuous (fun rho => 1 - rho * rho)). auto_derive. exact I.
Qed.
Section I.
Variable g : R -> R.
Hypothesis gc : forall x, continuous g x.
Variables b r : R.
Hypothesis Hb : 0 <= b.
Hypothesis Hr : 0 <= r.
Let F rho := g (mu_of rho) * visible_angle b r rho * rho.
Lemma gmu_cont rho : continuous (fun rho => g (mu_of rho)) rho.
Proof. apply (continuous_comp mu_of g); [apply mu_cont|apply gc]. Qed.

Lemma F_cont_pos rho : 0 < b -> 0 < rho -> continuous F rho.
Proof.
  intros Hb' Hrho. unfold F. apply (continuous_mult (K := R_AbsRing) (fun rho => g (mu_of rho) * visible_angle b r rho) (fun rho => rho)); [|apply continuous_id].
  apply (continuous_mult (K := R_AbsRing) (fun rho => g (mu_of rho)) (fun rho => visible_angle b r rho)); [apply gmu_cont|].
  apply (continuous_ext_loc _ (fun rho => 2 * PI - 2 * acos ((rho * rho + b * b - r * r) / (2 * rho * b)))).
  { exists (mkposreal rho Hrho). intros y Hy. cbn in Hy. unfold ball in Hy. cbn in Hy. unfold AbsRing_ball, abs, minus, plus, opp in Hy. cbn in Hy.
    assert (0 < y) by (unfold Rabs in Hy; destruct (Rcase_abs (y + - rho)); lra). unfold visible_angle. rewrite (hidden_acos b r y Hb' Hr H). reflexivity. }
  apply (continuous_minus (V := R_NormedModule) (fun _ => 2 * PI) (fun rho => 2 * acos ((rho * rho + b * b - r * r) / (2 * rho * b)))); [apply continuous_const|].
  apply (continuous_mult (K := R_AbsRing) (fun _ => 2) (fun rho => acos ((rho * rho + b * b - r * r) / (2 * rho * b)))); [apply continuous_const|].
  apply (continuous_comp (fun rho => (rho * rho + b * b - r * r) / (2 * rho * b)) acos); [|apply acos_cont].
  apply (ex_derive_continuous (fun rho => (rho * rho + b * b - r * r) / (2 * rho * b))). auto_derive. assert (0 < rho * b) by nra. lra.
Qed.
Lemma gmu_bounded : exists C, 0 <= C /\ forall rho, 0 <= rho <= 1 -> Rabs (g (mu_of rho)) <= C.
Proof.
  destruct (continuity_ab_maj (fun rho => Rabs (g (mu_of rho))) 0 1 ltac:(lra)) as (m & Hm & _).
  { intros c _. apply continuity_pt_filterlim. apply (continuous_comp (fun rho => g (mu_of rho)) Rabs); [apply gmu_cont|]. apply continuous_Rabs. }
  exists (Rabs (g (mu_of m))). split; [apply Rabs_pos|]. exact Hm.
Qed.
Lemma F_cont_0 : continuous F 0.
Proof.
  apply continuity_pt_filterlim. intros eps Heps.
  (* |g (mu)| is bounded near 0 *)
  destruct (proj2 (continuity_pt_filterlim (fun rho => g (mu_of rho)) 0) (gmu_cont 0) 1 ltac:(lra)) as (d0 & D0 & B0).
  set (C := Rabs (g (mu_of 0)) + 1). assert (HC : 0 < C) by (unfold C; generalize (Rabs_pos (g (mu_of 0))); lra). assert (Hpi := PI_RGT_0).
  set (d1 := eps / (C * (2 * PI))). assert (HD : 0 < C * (2 * PI)) by nra. assert (D1 : 0 < d1) by (apply Rdiv_lt_0_compat; lra).
  exists (Rmin d0 d1). split; [apply Rlt_gt, Rmin_glb_lt; lra|]. intros y [[_ Hne] Hy]. cbn in *. unfold R_dist in *.
  assert (M1 := Rmin_l d0 d1). assert (M2 := Rmin_r d0 d1). assert (B := B0 y). cbn in B. unfold R_dist in B.
  assert (Bd : Rabs (g (mu_of y)) < C). { unfold C. assert (Q := B ltac:(split; [split; [exact I|exact Hne]|lra])). assert (T := Rabs_triang (g (mu_of y) - g (mu_of 0)) (g (mu_of 0))).
    replace (g (mu_of y) - g (mu_of 0) + g (mu_of 0)) with (g (mu_of y)) in T by ring. lra. }
  unfold F. rewrite !Rmult_0_r, Rminus_0_r, !Rabs_mult. assert (V := visible_bounds b r y). rewrite (Rabs_pos_eq (visible_angle b r y)) by lra.
  rewrite Rminus_0_r in Hy. assert (Yp := Rabs_pos y). assert (Gp := Rabs_pos (g (mu_of y))).
  assert (P1 : Rabs (g (mu_of y)) * visible_angle b r y <= C * (2 * PI)) by (apply Rmult_le_compat; lra).
  assert (P2 : Rabs (g (mu_of y)) * visible_angle b r y * Rabs y <= C * (2 * PI) * Rabs y) by (apply Rmult_le_compat_r; lra).
  assert (P3 : C * (2 * PI) * Rabs y < C * (2 * PI) * d1) by (apply Rmult_lt_compat_l; lra).
  assert (E : C * (2 * PI) * d1 = eps) by (unfold d1; field; lra). lra.
Qed.
Lemma flux_int : ex_RInt F 0 1.
Proof.
  destruct (Rle_lt_or_eq_dec 0 b Hb) as [Hb'|Hb'].
  - apply (ex_RInt_continuous (V := R_CompleteNormedModule)). intros z Hz. rewrite Rmin_left, Rmax_right in Hz by lra.
    destruct (Rle_lt_or_eq_dec 0 z (proj1 Hz)) as [Hz'|Hz']; [apply F_cont_pos; assumption|subst z; apply F_cont_0].
  - assert (Hc : forall c x y, ex_RInt (fun rho => g (mu_of rho) * c * rho) x y).
    { intros c x y. apply (ex_RInt_continuous (V := R_CompleteNormedModule)). intros z _.
      apply (continuous_mult (K := R_AbsRing) (fun rho => g (mu_of rho) * c) (fun rho => rho)); [|apply continuous_id].
      apply (continuous_mult (K := R_AbsRing) (fun rho => g (mu_of rho)) (fun _ => c)); [apply gmu_cont|apply continuous_const]. }
    set (m := Rmin r 1). assert (Hm : 0 <= m <= 1) by (unfold m, Rmin; destruct (Rle_dec r 1); lra).
    apply ex_RInt_Chasles with m.
    + apply (ex_RInt_ext (fun rho => g (mu_of rho) * 0 * rho)); [|apply Hc]. intros x Hx. rewrite Rmin_left, Rmax_right in Hx by lra. unfold F, visible_angle, hidden_angle. match goal with |- @eq _ ?a ?b => change (@eq R a b) end.
      destruct (Rle_dec (x + b) r) as [H|H]; [ring|]. exfalso. apply H. rewrite <- Hb'. unfold m, Rmin in *. destruct (Rle_dec r 1); lra.
    + apply (ex_RInt_ext (fun rho => g (mu_of rho) * (2 * PI) * rho)); [|apply Hc]. intros x Hx. rewrite Rmin_left, Rmax_right in Hx by lra. unfold F, visible_angle, hidden_angle. match goal with |- @eq _ ?a ?b => change (@eq R a b) end.
      rewrite <- Hb', Rplus_0_r, Rminus_0_r, (Rabs_pos_eq x) by lra.
      destruct (Rle_dec x r) as [H|H]; [exfalso; unfold m, Rmin in *; destruct (Rle_dec r 1); lra|]. destruct (Rle_dec r x); [ring|lra].
Qed.
End I.

(** ** the whole disk *)
Lemma xsqrt_derive x : 0 <= x -> is_derive (fun x => x * sqrt x) x (3 / 2 * sqrt x).
Proof.
  intro Hx. destruct (Rle_lt_or_eq_dec 0 x Hx) as [H|H].
  - assert (S := sqrt_lt_R0 x H). assert (SS := sqrt_sqrt x Hx). auto_derive; [exact H|].
    assert (E : x * (1 * / (2 * sqrt x)) = sqrt x / 2). { apply Rmult_eq_reg_r with (2 * sqrt x); [|lra]. replace (x * (1 * / (2 * sqrt x)) * (2 * sqrt x)) with x by (field; lra). lra. }
    rewrite E. field.
  - subst x. apply is_derive_Reals. intros eps Heps. exists (mkposreal (eps * eps) ltac:(nra)). intros h Hh Hd. cbn in Hd.
    rewrite Rplus_0_l, sqrt_0, !Rmult_0_r, !Rminus_0_r. replace (h * sqrt h / h) with (sqrt h) by (field; exact Hh). assert (P := sqrt_pos h). rewrite Rabs_pos_eq by exact P.
    destruct (Rle_dec h 0) as [h0|h0]; [rewrite sqrt_neg_0 by exact h0; lra|]. apply Rlt_le_trans with (sqrt (eps * eps)); [|rewrite sqrt_square; lra].
    apply sqrt_lt_1; try lra; try nra. rewrite Rabs_pos_eq in Hd; lra.
Qed.
Definition full_flux (g : R -> R) : R := RInt (fun rho => g (mu_of rho) * (2 * PI) * rho) 0 1.
Lemma full0 : is_RInt (fun rho => basis0 (mu_of rho) * (2 * PI) * rho) 0 1 PI.
Proof.
  assert (Q : is_RInt (fun rho => 1 * (2 * PI) * rho) 0 1 (minus (PI * (1 * 1)) (PI * (0 * 0)))).
  { apply (is_RInt_derive (fun rho => PI * (rho * rho)) (fun rho => 1 * (2 * PI) * rho)).
    - intros x _. auto_derive; [exact I|]. ring.
    - intros x _. apply (ex_derive_continuous (fun rho => 1 * (2 * PI) * rho)). auto_derive. exact I. }
  replace (minus (PI * (1 * 1)) (PI * (0 * 0))) with PI in Q; [exact Q|]. unfold minus, plus, opp. cbn. ring.
Qed.
Lemma mu_sq rho : 0 <= rho <= 1 -> mu_of rho * mu_of rho = 1 - rho * rho.
Proof. intros H. unfold mu_of. apply sqrt_sqrt. nra. Qed.
Lemma full1 : is_RInt (fun rho => basis1 (mu_of rho) * (2 * PI) * rho) 0 1 (2 * PI / 3).
Proof.
  set (G := fun rho => - (2 * PI / 3) * ((1 - rho * rho) * sqrt (1 - rho * rho))).
  assert (Q : is_RInt (fun rho => basis1 (mu_of rho) * (2 * PI) * rho) 0 1 (minus (G 1) (G 0))).
  { apply (is_RInt_derive G (fun rho => basis1 (mu_of rho) * (2 * PI) * rho)).
    - intros x Hx. rewrite Rmin_left, Rmax_right in Hx by lra. unfold G.
      evar_last. { apply (is_derive_scal (fun rho => (1 - rho * rho) * sqrt (1 - rho * rho))).
        apply (is_derive_comp (fun x => x * sqrt x) (fun rho => 1 - rho * rho)); [apply xsqrt_derive; nra|].
        assert (D : is_derive (fun rho => 1 - rho * rho) x (- (2 * x))) by (auto_derive; [exact I|ring]). exact D. }
      unfold scal, minus, plus, opp, basis1, mu_of. cbn. unfold mult. cbn. field.
    - intros x _. unfold basis1. apply (continuous_mult (K := R_AbsRing) (fun rho => mu_of rho * (2 * PI)) (fun rho => rho)); [|apply continuous_id].
      apply (continuous_mult (K := R_AbsRing) mu_of (fun _ => 2 * PI)); [apply mu_cont|apply continuous_const]. }
  replace (minus (G 1) (G 0)) with (2 * PI / 3) in Q; [exact Q|]. unfold G, minus, plus, opp. cbn.
  replace (1 - 1 * 1) with 0 by ring. replace (1 - 0 * 0) with 1 by ring. rewrite sqrt_1, sqrt_0. field.
Qed.
Lemma full2 : is_RInt (fun rho => basis2 (mu_of rho) * (2 * PI) * rho) 0 1 0.
Proof.
  set (G := fun rho => 2 * PI * (rho * rho - rho * rho * (rho * rho))).
  assert (Q : is_RInt (fun rho => (4 * (1 - rho * rho) - 2) * (2 * PI) * rho) 0 1 (minus (G 1) (G 0))).
  { apply (is_RInt_derive G (fun rho => (4 * (1 - rho * rho) - 2) * (2 * PI) * rho)).
    - intros x _. unfold G. auto_derive; [exact I|]. ring.
    - intros x _. apply (ex_derive_continuous (fun rho => (4 * (1 - rho * rho) - 2) * (2 * PI) * rho)). auto_derive. exact I. }
  replace (minus (G 1) (G 0)) with 0 in Q by (unfold G, minus, plus, opp; cbn; ring).
  apply (is_RInt_ext (fun rho => (4 * (1 - rho * rho) - 2) * (2 * PI) * rho)); [|exact Q].
  intros x Hx. rewrite Rmin_left, Rmax_right in Hx by lra. unfold basis2. rewrite mu_sq by lra. reflexivity.
Qed.

(** ** linearity, bounds *)
Lemma basis0_cont x : continuous basis0 x. Proof. apply (continuous_const 1). Qed.
Lemma basis1_cont x : continuous basis1 x. Proof. apply (continuous_id x). Qed.
Lemma basis2_cont x : continuous basis2 x. Proof. apply (ex_derive_continuous basis2). unfold basis2. auto_derive. exact I. Qed.
Definition combo (c0 c1 c2 mu : R) : R := c0 * basis0 mu + c1 * basis1 mu + c2 * basis2 mu.
Lemma combo_cont c0 c1 c2 x : continuous (combo c0 c1 c2) x.
Proof. apply (ex_derive_continuous (combo c0 c1 c2)). unfold combo, basis0, basis1, basis2. auto_derive. exact I. Qed.

Lemma is_lin (f0 f1 f2 h : R -> R) c0 c1 c2 l0 l1 l2 : is_RInt f0 0 1 l0 -> is_RInt f1 0 1 l1 -> is_RInt f2 0 1 l2 ->
  (forall x, h x = c0 * f0 x + c1 * f1 x + c2 * f2 x) -> is_RInt h 0 1 (c0 * l0 + c1 * l1 + c2 * l2).
Proof.
  intros H0 H1 H2 Hh. apply (is_RInt_ext (fun x => plus (plus (scal c0 (f0 x)) (scal c1 (f1 x))) (scal c2 (f2 x)))).
  { intros x _. rewrite Hh. reflexivity. }
  apply (is_RInt_plus (V := R_NormedModule)); [apply (is_RInt_plus (V := R_NormedModule))|]; apply (is_RInt_scal (V := R_NormedModule)); assumption.
Qed.
Lemma visible_lin c0 c1 c2 b r : 0 <= b -> 0 <= r ->
  visible_flux (combo c0 c1 c2) b r = c0 * visible_flux basis0 b r + c1 * visible_flux basis1 b r + c2 * visible_flux basis2 b r.
Proof.
  intros Hb Hr. apply is_RInt_unique. eapply is_lin.
  - apply (RInt_correct (V := R_CompleteNormedModule)). apply (flux_int basis0 basis0_cont b r Hb Hr).
  - apply (RInt_correct (V := R_CompleteNormedModule)). apply (flux_int basis1 basis1_cont b r Hb Hr).
  - apply (RInt_correct (V := R_CompleteNormedModule)). apply (flux_int basis2 basis2_cont b r Hb Hr).
  - intro x. unfold combo. ring.
Qed.
Lemma full_lin c0 c1 c2 : is_RInt (fun rho => combo c0 c1 c2 (mu_of rho) * (2 * PI) * rho) 0 1 (PI * c0 + 2 * PI / 3 * c1).
Proof.
  replace (PI * c0 + 2 * PI / 3 * c1) with (c0 * PI + c1 * (2 * PI / 3) + c2 * 0) by ring. eapply is_lin; [exact full0|exact full1|exact full2|]. intro x. unfold combo. ring.
Qed.
Lemma full_combo c0 c1 c2 : full_flux (combo c0 c1 c2) = PI * c0 + 2 * PI / 3 * c1.
Proof. apply is_RInt_unique, full_lin. Qed.

Lemma visible_out_full g b r : 0 <= r -> 1 + r <= b -> visible_flux g b r = full_flux g.
Proof.
  intros Hr Hb. apply RInt_ext. intros x Hx. rewrite Rmin_left, Rmax_right in Hx by lra. rewrite visible_out by lra. reflexivity.
Qed.
Lemma visible_covered_0 g b r : 1 + b <= r -> visible_flux g b r = 0.
Proof.
  intros Hr. unfold visible_flux. rewrite (RInt_ext _ (fun _ => 0)).
  - rewrite RInt_const. unfold scal. cbn. unfold mult. cbn. ring.
  - intros x Hx. rewrite Rmin_left, Rmax_right in Hx by lra. rewrite visible_covered by lra. match goal with |- @eq _ ?a ?b => change (@eq R a b) end. ring.
Qed.
Lemma mu_bound rho : 0 <= rho <= 1 -> 0 <= mu_of rho <= 1.
Proof. intro H. unfold mu_of. split; [apply sqrt_pos|]. rewrite <- sqrt_1 at 2. apply sqrt_le_1; nra. Qed.
Lemma visible_range c0 c1 c2 b r : 0 <= b -> 0 <= r -> (forall mu, 0 <= mu <= 1 -> 0 <= combo c0 c1 c2 mu) ->
  0 <= visible_flux (combo c0 c1 c2) b r <= full_flux (combo c0 c1 c2).
Proof.
  intros Hb Hr Hp. assert (J := flux_int _ (combo_cont c0 c1 c2) b r Hb Hr). assert (Hpi := PI_RGT_0). split.
  - apply RInt_ge_0; [lra|exact J|]. intros x Hx. assert (V := visible_bounds b r x). assert (P := Hp (mu_of x) (mu_bound x ltac:(lra))).
    apply Rmult_le_pos; [apply Rmult_le_pos; lra|lra].
  - apply RInt_le; [lra|exact J|eexists; apply full_lin|]. intros x Hx. assert (V := visible_bounds b r x). assert (P := Hp (mu_of x) (mu_bound x ltac:(lra))).
    apply Rmult_le_compat_r; [lra|]. apply Rmult_le_compat_l; lra.
Qed.
