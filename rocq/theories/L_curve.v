(** * What a transit light curve determines *)
From Coq Require Import Reals Lra Lia Psatz List Bool Arith ZArith.
From Coquelicot Require Import Coquelicot.
From Verif Require Import Num CoreOps Inst CoreFlux M_units M_kepler M_fin M_tensor M_limbdark M_simple Spec_orbit Spec_params Spec_array Spec_simple Spec_light Spec_depth Spec_curve
  L_real L_orbit L_params3 L_params4 L_simple L_transit L_flux L_area L_depth L_light1 L_light3 L_light4 L_light7 L_light8 L_depth2 L_depth3 L_depth4.
Import ListNotations.
Open Scope R_scope.

(** ** the lattice of transit times *)
Lemma windows t0 P w t0' P' w' : 0 < w < P / 2 -> 0 < w' < P' / 2 ->
  (forall t, (exists z : Z, Rabs (t - (t0 + IZR z * P)) < w) <-> exists z : Z, Rabs (t - (t0' + IZR z * P')) < w') ->
  P' = P /\ w' = w /\ exists z : Z, t0' = t0 + IZR z * P.
Proof.
  intros Hw Hw' H.
  assert (K : forall a p v a' p' v', 0 < v < p / 2 -> 0 < v' < p' / 2 ->
    (forall t, (exists z : Z, Rabs (t - (a + IZR z * p)) < v) <-> exists z : Z, Rabs (t - (a' + IZR z * p')) < v') ->
    forall z, exists z', a' + IZR z' * p' + v' >= a + IZR z * p + v /\ a' + IZR z' * p' - v' <= a + IZR z * p - v).
  { intros a p v a' p' v' Hv Hv' E z. destruct (proj1 (E (a + IZR z * p))) as [z' Hz]; [exists z; rewrite Rminus_eq_0, Rabs_R0; lra|]. exists z'. apply Rabs_def2 in Hz.
    assert (F : forall s, s = v' \/ s = - v' -> ~ exists y : Z, Rabs (a' + IZR z' * p' + s - (a' + IZR y * p')) < v').
    { intros s Hs [y Hy]. apply Rabs_def2 in Hy. replace (a' + IZR z' * p' + s - (a' + IZR y * p')) with (IZR (z' - y) * p' + s) in Hy by (rewrite minus_IZR; ring).
      assert (C : (z' - y <= -1 \/ z' - y = 0 \/ 1 <= z' - y)%Z) by lia. destruct C as [C|[C|C]].
      - apply IZR_le in C. assert (IZR (z' - y) * p' <= -1 * p') by (apply Rmult_le_compat_r; lra). lra.
      - rewrite C in Hy. lra.
      - apply IZR_le in C. assert (1 * p' <= IZR (z' - y) * p') by (apply Rmult_le_compat_r; lra). lra. }
    split.
    - apply Rnot_lt_ge. intro L. apply (F v'); [left; reflexivity|]. apply E. exists z. apply Rabs_def1; lra.
    - apply Rnot_lt_le. intro L. apply (F (- v')); [right; reflexivity|]. apply E. exists z. apply Rabs_def1; lra. }
  assert (E : forall z, exists z', t0' + IZR z' * P' = t0 + IZR z * P /\ w' = w).
  { intro z. destruct (K _ _ _ _ _ _ Hw Hw' H z) as (z' & A1 & A2). destruct (K _ _ _ _ _ _ Hw' Hw (fun t => iff_sym (H t)) z') as (y & B1 & B2). exists z'.
    assert (Ey : y = z). { assert (C : (z - y <= -1 \/ z - y = 0 \/ 1 <= z - y)%Z) by lia. assert (Q : t0 + IZR z * P - (t0 + IZR y * P) = IZR (z - y) * P) by (rewrite minus_IZR; ring). destruct C as [C|[C|C]]; [exfalso|lia|exfalso]; apply IZR_le in C.
      - assert (IZR (z - y) * P <= -1 * P) by (apply Rmult_le_compat_r; lra). lra.
      - assert (1 * P <= IZR (z - y) * P) by (apply Rmult_le_compat_r; lra). lra. }
    subst y. lra. }
  assert (E' : forall z', exists z, t0' + IZR z' * P' = t0 + IZR z * P).
  { intro z'. destruct (K _ _ _ _ _ _ Hw' Hw (fun t => iff_sym (H t)) z') as (z & A1 & A2). exists z. destruct (K _ _ _ _ _ _ Hw Hw' H z) as (y & B1 & B2).
    assert (Ey : y = z'). { assert (C : (z' - y <= -1 \/ z' - y = 0 \/ 1 <= z' - y)%Z) by lia. assert (Q : t0' + IZR z' * P' - (t0' + IZR y * P') = IZR (z' - y) * P') by (rewrite minus_IZR; ring). destruct C as [C|[C|C]]; [exfalso|lia|exfalso]; apply IZR_le in C.
      - assert (IZR (z' - y) * P' <= -1 * P') by (apply Rmult_le_compat_r; lra). lra.
      - assert (1 * P' <= IZR (z' - y) * P') by (apply Rmult_le_compat_r; lra). lra. }
    subst y. lra. }
  destruct (E 0%Z) as (a & A & W). destruct (E 1%Z) as (b & B & _). destruct (E' 0%Z) as (c & C). destruct (E' 1%Z) as (d & D).
  assert (Q1 : P = IZR (b - a) * P') by (rewrite minus_IZR; lra). assert (Q2 : P' = IZR (d - c) * P) by (rewrite minus_IZR; lra).
  assert (Q3 : IZR ((b - a) * (d - c)) = 1). { rewrite mult_IZR. apply (Rmult_eq_reg_r P); [|lra]. rewrite Rmult_1_l. rewrite Q1 at 2. rewrite Q2. ring. }
  apply eq_IZR in Q3. assert (G : (0 < d - c)%Z). { apply lt_IZR. apply Rnot_le_lt. intro L. assert (IZR (d - c) * P <= 0 * P) by (apply Rmult_le_compat_r; lra). lra. }
  assert (Q4 : (d - c = 1)%Z) by (rewrite Z.mul_comm in Q3; destruct (Z.eq_mul_1 _ _ Q3); lia). rewrite Q4 in Q2. split; [lra|]. split; [exact W|]. exists c. lra.
Qed.
(** ** sine of an angle below a right angle *)
Lemma sin2_lt y q : 0 <= y < PI / 2 -> 0 <= q < 1 -> (sin y * sin y < q <-> y < asin (sqrt q)) /\ (sin y * sin y <= q <-> y <= asin (sqrt q)).
Proof.
  intros Hy Hq. assert (Hpi := PI_RGT_0). assert (S0 : 0 <= sqrt q) by apply sqrt_pos. assert (S2 := sqrt_sqrt q (proj1 Hq)). assert (S1 : sqrt q < 1) by (apply Rnot_le_lt; intro; nra).
  assert (B := asin_bound (sqrt q)). assert (E : sin (asin (sqrt q)) = sqrt q) by (apply sin_asin; lra).
  assert (B0 : 0 <= asin (sqrt q)). { apply Rnot_lt_le. intro L. assert (sin (asin (sqrt q)) < sin 0) by (apply sin_increasing_1; lra). rewrite sin_0 in *. lra. }
  assert (Y : 0 <= sin y) by (apply sin_ge_0; lra). set (s := sqrt q) in *. set (al := asin s) in *.
  assert (M1 : y < al -> sin y < s) by (intro L; rewrite <- E; apply sin_increasing_1; lra).
  assert (M2 : y <= al -> sin y <= s) by (intro L; rewrite <- E; apply sin_incr_1; lra).
  assert (M3 : al <= y -> s <= sin y) by (intro L; rewrite <- E; apply sin_incr_1; lra).
  assert (M4 : al < y -> s < sin y) by (intro L; rewrite <- E; apply sin_increasing_1; lra).
  split; split; intro L.
  - apply Rnot_le_lt. intro L'. specialize (M3 L'). nra.
  - specialize (M1 L). nra.
  - apply Rnot_lt_le. intro L'. specialize (M4 L'). nra.
  - specialize (M2 L). nra.
Qed.
Lemma asin_sqrt q : 0 < q < 1 -> 0 < asin (sqrt q) < PI / 2.
Proof.
  intro Hq. assert (Hpi := PI_RGT_0). assert (S0 : 0 < sqrt q) by (apply sqrt_lt_R0; lra). assert (S2 := sqrt_sqrt q ltac:(lra)). assert (S1 : sqrt q < 1) by (apply Rnot_le_lt; intro; nra). assert (B := asin_bound_lt (sqrt q) ltac:(lra)). split; [|lra].
  apply Rnot_le_lt. intro L. assert (sin (asin (sqrt q)) <= sin 0) by (apply sin_incr_1; lra). rewrite sin_0, sin_asin in * by lra. lra.
Qed.
(** ** the uniform star *)
Lemma band_mid b r rho : 0 <= b -> 0 < r -> 0 < rho -> Rabs (b - r) < rho < b + r -> 0 < band b r rho.
Proof.
  intros Hb Hr Hp H. assert (Hpi := PI_RGT_0). apply Rmult_lt_0_compat; [|exact Hp]. destruct (Rle_lt_or_eq_dec 0 b Hb) as [Hb'|Hb'].
  - rewrite hidden_acos by lra. set (K := (rho * rho + b * b - r * r) / (2 * rho * b)). assert (D : 0 < 2 * rho * b) by nra. assert (A : b - r < rho /\ r - b < rho) by (assert (Q := Rle_abs (b - r)); assert (Q' := Rle_abs (- (b - r))); rewrite Rabs_Ropp in Q'; lra).
    assert (HK : K < 1). { apply Rmult_lt_reg_r with (2 * rho * b); [exact D|]. replace (K * (2 * rho * b)) with (rho * rho + b * b - r * r) by (unfold K; field; lra). nra. }
    assert (0 < acos K); [|lra]. destruct (Rle_dec K (-1)) as [h|h]; [rewrite acos_outm1 by exact h; exact Hpi|].
    destruct (Rle_lt_or_eq_dec 0 (acos K) (proj1 (acos_bound K))) as [|E]; [assumption|]. exfalso. assert (C := cos_acos K ltac:(lra)). rewrite <- E, cos_0 in C. lra.
  - subst b. rewrite hidden_zero by lra. destruct (Rle_dec rho r); lra.
Qed.
Lemma band_cut b r : 0 <= b -> 0 < r -> RInt (band b r) 0 1 <= PI * (r * r) /\ (1 < b + r -> RInt (band b r) 0 1 < PI * (r * r)).
Proof.
  intros Hb Hr. assert (Hpi := PI_RGT_0). destruct (Rle_dec (b + r) 1) as [H|H]; [rewrite (is_RInt_unique (V := R_CompleteNormedModule) _ _ _ _ (band_area b r 1 Hb ltac:(lra) H)); split; lra|].
  assert (A := is_RInt_unique (V := R_CompleteNormedModule) _ _ _ _ (band_area b r (b + r) Hb ltac:(lra) ltac:(lra))).
  rewrite <- (RInt_Chasles (V := R_CompleteNormedModule) _ 0 1 (b + r)) in A by (apply band_int; lra). assert (A2 : RInt (band b r) 0 1 + RInt (band b r) 1 (b + r) = PI * (r * r)) by exact A.
  cut (0 < RInt (band b r) 1 (b + r)); [lra|]. set (m := Rmax 1 (Rabs (b - r))). assert (M1 := Rmax_l 1 (Rabs (b - r))). assert (M2 := Rmax_r 1 (Rabs (b - r))). fold m in M1, M2.
  destruct (Rle_lt_or_eq_dec 0 b Hb) as [Hb'|Hb'].
  - assert (M3 : m < b + r) by (unfold m; apply Rmax_lub_lt; [lra|apply Rabs_def1; lra]).
    rewrite <- (RInt_Chasles (V := R_CompleteNormedModule) _ 1 m (b + r)) by (apply band_int; lra).
    assert (P1 : 0 <= RInt (band b r) 1 m) by (apply RInt_ge_0; [lra|apply band_int; lra|intros; apply band_pos; lra]).
    assert (P2 : 0 < RInt (band b r) m (b + r)). { apply RInt_gt_0; [exact M3|intros; apply band_mid; lra|]. intros x Hx. apply hidden_cont; lra. }
    change (0 < RInt (band b r) 1 m + RInt (band b r) m (b + r)). lra.
  - subst b. replace (0 + r) with r by ring. rewrite (RInt_ext (V := R_CompleteNormedModule) _ (fun x => 2 * PI * x)).
    + apply RInt_gt_0; [lra|intros; nra|]. intros x Hx. apply (ex_derive_continuous (fun x => 2 * PI * x)). auto_derive. exact I.
    + intros x Hx. rewrite Rmin_left, Rmax_right in Hx by lra. unfold band. rewrite hidden_zero by lra. destruct (Rle_dec x r); [reflexivity|lra].
Qed.
Lemma uniform_cut b r los : 0 <= b -> 0 < r -> 0 < los -> - (r * r) <= rel_flux 0 0 b r los /\ (1 < b + r -> - (r * r) < rel_flux 0 0 b r los).
Proof.
  intros Hb Hr Hl. assert (Hpi := PI_RGT_0). rewrite rel_hidden by (rewrite ?uniform_disk; lra). rewrite uniform_disk, uniform_hidden, (Rabs_pos_eq b), (Rabs_pos_eq r) by lra. destruct (band_cut b r Hb Hr) as [C1 C2]. set (Y := RInt (band b r) 0 1) in *.
  assert (E : forall y, - y / PI = - (y / PI)) by (intro; unfold Rdiv; ring). assert (E' : r * r = PI * (r * r) / PI) by (field; lra). rewrite E, E'. split; [|intro h; specialize (C2 h)]; [apply Ropp_le_contravar|apply Ropp_lt_contravar]; unfold Rdiv; [apply Rmult_le_compat_r|apply Rmult_lt_compat_r]; try assumption; [left|]; apply Rinv_0_lt_compat, Hpi.
Qed.
