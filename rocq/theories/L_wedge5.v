(** * The prior of an angle *)
From Coq Require Import Reals List Bool Arith ZArith String Lra Lia Psatz.
From Coquelicot Require Import Coquelicot.
From Verif Require Import Num CoreOps Inst M_kwargs M_tensor M_limbdark M_dist Spec_dist Spec_prior Spec_plane L_real L_fl L_shapeS L_dist1 L_dist2 L_area L_prior L_wedge L_wedge2 L_wedge3 L_wedge4.
Import ListNotations.
Local Notation length := List.length.
Open Scope R_scope.

(** ** powers of the squared distance *)
Lemma powr_cont q u : 0 <= q -> continuous (fun u => Rpowr u q) u.
Proof.
  intro Hq. destruct (Rlt_dec 0 u) as [i|i].
  { apply (continuous_ext_loc _ (fun u => exp (q * ln u))).
    - exists (mkposreal u i). intros y Hy. unfold ball in Hy; cbn in Hy; unfold AbsRing_ball, abs, minus, plus, opp in Hy; cbn in Hy. apply Rabs_def2 in Hy. unfold Rpowr. destruct (Rlt_dec 0 y); [reflexivity|lra].
    - apply (ex_derive_continuous (V := R_NormedModule) (fun u => exp (q * ln u))). auto_derive. exact i. }
  destruct (Req_EM_T q 0) as [e|e].
  { apply (continuous_ext (fun _ => 1)); [|apply continuous_const]. intro y. unfold Rpowr. destruct (Rlt_dec 0 y); [rewrite e, Rpower_O by assumption; reflexivity|]. destruct (Req_EM_T q 0); [reflexivity|contradiction]. }
  assert (V : Rpowr u q = 0). { unfold Rpowr. destruct (Rlt_dec 0 u); [contradiction|]. destruct (Req_EM_T q 0); [contradiction|reflexivity]. }
  apply continuity_pt_filterlim. intros eps He. exists (Rpower eps (/ q)). split; [apply exp_pos|]. intros x (_ & Hx). cbn in *. unfold R_dist in *. rewrite V, Rminus_0_r.
  unfold Rpowr. destruct (Rlt_dec 0 x) as [j|j].
  - rewrite Rabs_pos_eq by (left; apply exp_pos). rewrite Rabs_pos_eq in Hx by lra.
    apply Rlt_le_trans with (Rpower (Rpower eps (/ q)) q).
    + apply Rlt_Rpower_l; [lra|]. split; [exact j|]. lra.
    + right. rewrite Rpower_mult, Rinv_l, Rpower_1 by assumption. reflexivity.
  - destruct (Req_EM_T q 0); [contradiction|]. rewrite Rabs_R0. exact He.
Qed.
Definition dens (q u : R) : R := Rpowr u q * exp (- (1 / 2 * u)) / (2 * PI).
Lemma dens_cont q u : 0 <= q -> continuous (dens q) u.
Proof.
  intro Hq. unfold dens. apply (continuous_mult (K := R_AbsRing) (fun u => Rpowr u q * exp (- (1 / 2 * u))) (fun _ => / (2 * PI))); [|apply continuous_const].
  apply (continuous_mult (K := R_AbsRing) (fun u => Rpowr u q) (fun u => exp (- (1 / 2 * u)))); [apply powr_cont; exact Hq|].
  apply (ex_derive_continuous (V := R_NormedModule) (fun u => exp (- (1 / 2 * u)))). auto_derive. exact I.
Qed.
Lemma dens_bound q : 0 <= q -> exists C, 0 < C /\ forall u, 0 <= u -> 0 <= dens q u <= C * exp (- (1 / 4 * u)).
Proof.
  intro Hq. assert (Pi := PI_RGT_0).
  assert (B : exists D, 0 < D /\ forall u, 0 <= u -> 0 <= Rpowr u q * exp (- (1 / 4 * u)) <= D).
  { destruct (Req_EM_T q 0) as [e|e].
    - exists 1. split; [lra|]. intros u Hu. replace (Rpowr u q) with 1. 2:{ unfold Rpowr. destruct (Rlt_dec 0 u); [rewrite e, Rpower_O by assumption; reflexivity|]. destruct (Req_EM_T q 0); [reflexivity|contradiction]. }
      split; [rewrite Rmult_1_l; left; apply exp_pos|]. rewrite Rmult_1_l. destruct Hu as [i|<-]; [|rewrite Rmult_0_r, Ropp_0, exp_0; lra]. left. apply Rlt_le_trans with (exp 0); [apply exp_increasing; lra|rewrite exp_0; lra].
    - exists (exp (q * ln (4 * q))). split; [apply exp_pos|]. intros u Hu. unfold Rpowr. destruct (Rlt_dec 0 u) as [i|i].
      2:{ destruct (Req_EM_T q 0); [contradiction|]. rewrite Rmult_0_l. split; [lra|left; apply exp_pos]. }
      split; [apply Rmult_le_pos; left; apply exp_pos|]. unfold Rpower. rewrite <- exp_plus.
      assert (E : ln u <= ln (4 * q) + u / (4 * q)).
      { assert (X : 0 < u / (4 * q)) by (apply Rdiv_lt_0_compat; lra). assert (T := exp_ineq1 (u / (4 * q)) ltac:(lra)).
        assert (ln (u / (4 * q)) < u / (4 * q)) by (rewrite <- (ln_exp (u / (4 * q))) at 2; apply ln_increasing; lra).
        unfold Rdiv in H. rewrite ln_mult, ln_Rinv in H by (try apply Rinv_0_lt_compat; lra). unfold Rdiv. lra. }
      assert (E' : q * ln u <= q * (ln (4 * q) + u / (4 * q))) by (apply Rmult_le_compat_l; lra). replace (q * (ln (4 * q) + u / (4 * q))) with (q * ln (4 * q) + u / 4) in E' by (field; lra).
      destruct (Rle_lt_or_eq_dec _ _ E') as [j|j]; [left; apply exp_increasing; lra|right; f_equal; lra]. }
  destruct B as (D & D0 & B). exists (D / (2 * PI)). split; [apply Rdiv_lt_0_compat; lra|]. intros u Hu. specialize (B u Hu). unfold dens.
  assert (E : exp (- (1 / 2 * u)) = exp (- (1 / 4 * u)) * exp (- (1 / 4 * u))) by (rewrite <- exp_plus; f_equal; field). rewrite E, <- Rmult_assoc.
  assert (X := exp_pos (- (1 / 4 * u))). assert (I2 : 0 < / (2 * PI)) by (apply Rinv_0_lt_compat; lra). clear E. revert B X. generalize (exp (- (1 / 4 * u))). intros x B X. unfold Rdiv.
  split.
  - apply Rmult_le_pos; [apply Rmult_le_pos; lra|lra].
  - replace (D * / (2 * PI) * x) with (D * x * / (2 * PI)) by ring. apply Rmult_le_compat_r; [lra|]. apply Rmult_le_compat_r; lra.
Qed.
Lemma dens_pos q u : 0 < u -> 0 < dens q u.
Proof.
  intro Hu. assert (Pi := PI_RGT_0). unfold dens, Rpowr. destruct (Rlt_dec 0 u); [|contradiction]. apply Rdiv_lt_0_compat; [|lra]. apply Rmult_lt_0_compat; apply exp_pos.
Qed.
Lemma dens_total q : 0 <= q -> exists T, 0 < T /\ (q = 0 -> T = 1) /\ forall th, - PI <= th <= PI -> over_plane (fun a b => one_if (Rle_dec (Ratan2 a b) th) * dens q (a * a + b * b)) (T * ((th + PI) / (2 * PI))).
Proof.
  intro Hq. assert (Pi := PI_RGT_0). destruct (dens_bound q Hq) as (C & C0 & B). assert (Ch := fun u => dens_cont q u Hq).
  destruct (Phi_limit (dens q) C Ch C0 B) as (L & HL). exists (L * PI).
  assert (L0 : 0 < L).
  { assert (K := HL 1 ltac:(lra)). assert (0 < Phi (dens q) 1); [|lra]. unfold Phi. apply RInt_gt_0; [lra| |intros; apply Ch]. intros x Hx. apply dens_pos. lra. }
  split; [apply Rmult_lt_0_compat; assumption|]. split.
  - intros ->. assert (V : forall y, 0 <= y -> Phi (dens 0) y = (1 - exp (- (1 / 2 * y))) / PI).
    { intros y Hy. unfold Phi. assert (I := exp_int 0 y (1 / 2) ltac:(lra)). apply (is_RInt_scal (V := R_NormedModule) _ 0 y (/ (2 * PI))) in I.
      rewrite (RInt_ext _ (fun u => scal (/ (2 * PI)) (exp (- (1 / 2 * u))))).
      - eapply eq_trans; [exact (is_RInt_unique (V := R_CompleteNormedModule) _ _ _ _ I)|]. unfold scal; cbn; unfold mult; cbn. rewrite Rmult_0_r, Ropp_0, exp_0. field. lra.
      - intros x Hx. rewrite Rmin_left in Hx by exact Hy. unfold dens, Rpowr, scal; cbn; unfold mult; cbn. destruct (Rlt_dec 0 x); [|lra]. rewrite Rpower_O by assumption. eqR. field. lra. }
    assert (E : forall eps, 0 < eps -> Rabs (L - 1 / PI) <= eps).
    { intros eps He. set (K := 4 * C + 1 / PI). assert (Kp : 0 < K) by (unfold K; assert (0 < 1 / PI) by (apply Rdiv_lt_0_compat; lra); lra).
      set (y := 4 * (K / eps)). assert (Q : 0 < K / eps) by (apply Rdiv_lt_0_compat; lra). assert (Y : 0 < y) by (unfold y; lra).
      assert (H := HL y ltac:(lra)). rewrite V in H by lra.
      assert (S : exp (- (1 / 4 * y)) * K <= eps).
      { rewrite exp_Ropp. assert (T := exp_ineq1 (1 / 4 * y) ltac:(lra)). apply Rmult_le_reg_l with (exp (1 / 4 * y)); [apply exp_pos|].
        rewrite <- Rmult_assoc, Rinv_r, Rmult_1_l by (apply Rgt_not_eq, exp_pos). assert (K / eps * eps = K) by (field; lra). assert (1 / 4 * y = K / eps) by (unfold y; field; lra). nra. }
      assert (S2 : 0 < exp (- (1 / 2 * y)) <= exp (- (1 / 4 * y))) by (split; [apply exp_pos|left; apply exp_increasing; lra]).
      assert (Ip : 0 < / PI) by (apply Rinv_0_lt_compat; lra). unfold K in S.
      replace (1 / PI) with (/ PI) in S |- * by (field; lra). replace ((1 - exp (- (1 / 2 * y))) / PI) with (/ PI - exp (- (1 / 2 * y)) * / PI) in H by (field; lra).
      revert H S S2. generalize (exp (- (1 / 2 * y))), (exp (- (1 / 4 * y))). intros x2 x4 H S S2.
      assert (0 < x2 * / PI <= x4 * / PI) by (split; [apply Rmult_lt_0_compat; lra|apply Rmult_le_compat_r; lra]).
      assert (0 < C * x4) by (apply Rmult_lt_0_compat; lra). apply Rabs_le. lra. }
    assert (L - 1 / PI = 0). { destruct (Req_dec (L - 1 / PI) 0) as [Z|N]; [exact Z|]. assert (A := Rabs_pos_lt _ N). specialize (E (Rabs (L - 1 / PI) / 2) ltac:(lra)). lra. }
    replace L with (1 / PI) by lra. field. lra.
  - intros th Hth. replace (L * PI * ((th + PI) / (2 * PI))) with (L / 2 * (th + PI)) by (field; lra). apply (sector_weight (dens q) C Ch C0 B L HL th Hth).
Qed.

Lemma forwarded_standard p start kw kw' : forwarded p [] start kw kw' -> standard_normal kw -> standard_normal kw'.
Proof.
  intros (_ & _ & _ & F) S k Hk. rewrite F; [exact (S k Hk)| | |intros []]; intros ->; cbn in Hk; intuition discriminate.
Qed.
Lemma two_normals a b : normal_density a * normal_density b = exp (- (1 / 2 * (a * a + b * b))) / (2 * PI).
Proof.
  assert (Pi := PI_RGT_0). unfold normal_density. replace (- (1 / 2 * (a * a + b * b))) with (- (a * a / 2) + - (b * b / 2)) by field. rewrite exp_plus.
  assert (S := sqrt_sqrt (2 * PI) ltac:(lra)). assert (S0 : 0 < sqrt (2 * PI)) by (apply sqrt_lt_R0; lra). rewrite <- S at 3. field. lra.
Qed.
Lemma over_plane_ext f g m : (forall a b, f a b = g a b) -> over_plane f m -> over_plane g m.
Proof.
  intros E (F & H1 & H2). exists F. split; [|exact H2]. intros b Hb. specialize (H1 b Hb). unfold over_line in *.
  apply (is_RInt_gen_ext (fun a => f a b)); [|exact H1]. exists (fun _ => True) (fun _ => True); [apply filter_true|apply filter_true|]. intros x y _ _ z _. apply E.
Qed.
Lemma angle_weight : forall p name reg kw ss out, angle p name reg kw = Ok (ss, out) -> standard_normal kw ->
  exists n1 n2 kw1 kw2 rest, ss = Free [] n1 "Normal" kw1 :: Free [] n2 "Normal" kw2 :: rest /\ List.Forall no_variable rest /\ standard_normal kw1 /\ standard_normal kw2 /\
    forall i, (forall q, reg = Some q -> exists k, aget q i = Fin k /\ 0 <= k) -> exists Th V T,
      (forall e a b, aget (e n1) i = Fin a -> aget (e n2) i = Fin b -> a * a + b * b <> 0 -> aget (out e) i = Fin (Th a b) /\ 0 < V a b /\
         ((potentials rest = [] /\ V a b = 1) \/ exists f, potentials rest = [f] /\ aget (f e) i = Fin (ln (V a b)))) /\
      0 < T /\ (reg = None -> T = 1) /\ over_plane (fun a b => normal_density a * normal_density b * V a b) T /\
      forall th, - PI <= th <= PI -> over_plane (fun a b => one_if (Rle_dec (Th a b) th) * (normal_density a * normal_density b * V a b)) (T * ((th + PI) / (2 * PI))).
Proof.
  intros p name reg kw ss out E Sn. destruct (angle_form _ _ _ _ _ _ E) as (kw1 & kw2 & -> & -> & z & v & _ & _ & F1 & F2).
  exists (angle1 name), (angle2 name), kw1, kw2. eexists. split; [reflexivity|]. split; [apply angle_pot_novar|].
  split; [exact (forwarded_standard _ _ _ _ F1 Sn)|]. split; [exact (forwarded_standard _ _ _ _ F2 Sn)|]. intros i Hr.
  assert (K : exists k, 0 <= k /\ (reg = None -> k = 0) /\ forall q, reg = Some q -> aget q i = Fin k).
  { destruct reg as [q|]; [|exists 0; split; [lra|split; [reflexivity|discriminate]]]. destruct (Hr q eq_refl) as (k & K1 & K2). exists k. split; [exact K2|]. split; [discriminate|]. intros q' Q. injection Q as <-. exact K1. }
  destruct K as (k & K0 & KN & KS). destruct (dens_total k K0) as (T & T0 & T1 & HT).
  assert (ED : forall a b, normal_density a * normal_density b * Rpowr (a * a + b * b) k = dens k (a * a + b * b)).
  { intros a b. rewrite two_normals. unfold dens, Rdiv. ring. }
  exists Ratan2, (fun a b => Rpowr (a * a + b * b) k), T. split.
  { intros e a b E1 E2 N. assert (Q : 0 < a * a + b * b) by (assert (A1 := Rle_0_sqr a); assert (A2 := Rle_0_sqr b); unfold Rsqr in *; lra).
    split; [unfold angle_out; cbn [natan2 NumT amap2 aget]; rewrite E1, E2; reflexivity|].
    split; [unfold Rpowr; destruct (Rlt_dec 0 (a * a + b * b)); [apply exp_pos|contradiction]|].
    destruct reg as [q|].
    - right. eexists. split; [reflexivity|]. cbn [nmul nlog nadd npw NumT amap2 amap aget]. rewrite (KS q eq_refl), E1, E2. cbn.
      assert (Rb : Rltb 0 (a * a + b * b) = true) by (unfold Rltb; destruct (Rlt_dec 0 (a * a + b * b)); [reflexivity|contradiction]). rewrite Rb. unfold Rpowr.
      destruct (Rlt_dec 0 (a * a + b * b)); [|contradiction]. unfold Rpower. rewrite ln_exp. reflexivity.
    - left. split; [reflexivity|]. rewrite KN by reflexivity. unfold Rpowr. destruct (Rlt_dec 0 (a * a + b * b)); [apply Rpower_O; assumption|contradiction]. }
  split; [exact T0|]. split; [intro N; apply T1, KN, N|]. assert (Pi := PI_RGT_0). split.
  - assert (H := HT PI ltac:(lra)). replace (T * ((PI + PI) / (2 * PI))) with T in H by (field; lra). revert H. apply over_plane_ext. intros a b. rewrite ED. unfold one_if. destruct (Rle_dec (Ratan2 a b) PI) as [j|j]; [ring|]. elim j. apply Ratan2_bounds.
  - intros th Hth. specialize (HT th Hth). revert HT. apply over_plane_ext. intros a b. rewrite ED. reflexivity.
Qed.
Lemma angle_prior_example : exists ss out, angle false "w" (Some (alit (Fin 10))) [] = Ok (ss, out) /\ standard_normal [] /\
  (forall i, exists k, aget (alit (Fin 10)) i = Fin k /\ 0 <= k) /\ potentials ss <> [].
Proof.
  eexists. eexists. split; [reflexivity|]. split; [intros k _; reflexivity|]. split; [|discriminate]. intro i. exists 10. split; [reflexivity|lra].
Qed.
