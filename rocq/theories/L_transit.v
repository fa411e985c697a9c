(** * in_transit: one planet, machine numbers *)
From Coq Require Import Reals List Bool Arith ZArith Lra Lia Psatz.
From Verif Require Import Num CoreOps Inst M_units M_kepler M_fin M_tensor Spec_orbit Spec_params Spec_array L_real L_orbit L_params4 L_fl L_fl2 L_fl3.
Import ListNotations.
Open Scope R_scope.

Lemma Rabs_le_between x y : Rabs x <= y -> - y <= x <= y.
Proof. unfold Rabs. destruct (Rcase_abs x); lra. Qed.
Lemma asin_bound' x : - (PI / 2) <= asin x <= PI / 2.
Proof. apply asin_bound. Qed.

Lemma asin_nonneg x : 0 <= x <= 1 -> 0 <= asin x.
Proof.
  intros H. destruct (Rle_or_lt 0 (asin x)); [assumption|].
  assert (B := asin_bound' x). assert (E := sin_asin x ltac:(lra)).
  assert (sin (asin x) < 0) by (apply sin_lt_0_var; generalize PI_RGT_0; lra). lra.
Qed.

Lemma asin_lt_PI2 x : 0 <= x < 1 -> asin x < PI / 2.
Proof.
  intros H. assert (B := asin_bound' x). destruct (Req_dec (asin x) (PI / 2)) as [E|]; [|lra].
  assert (Es := sin_asin x ltac:(lra)). rewrite E, sin_PI2 in Es. lra.
Qed.

(** |th| <= asin x, for th within half a turn, in terms of sine and cosine *)
Lemma asin_window x th : 0 <= x < 1 -> - PI <= th <= PI ->
  (Rabs th <= asin x <-> 0 < cos th /\ sin th * sin th <= x * x).
Proof.
  intros Hx Hth. assert (Hpi := PI_RGT_0). assert (B0 := asin_nonneg x ltac:(lra)). assert (B1 := asin_lt_PI2 x Hx).
  assert (Es := sin_asin x ltac:(lra)).
  assert (Sa : sin th * sin th = sin (Rabs th) * sin (Rabs th)).
  { unfold Rabs. destruct (Rcase_abs th); [rewrite sin_neg; ring|ring]. }
  assert (Ca : cos th = cos (Rabs th)).
  { unfold Rabs. destruct (Rcase_abs th); [rewrite cos_neg; reflexivity|reflexivity]. }
  rewrite Sa, Ca. assert (Hab : 0 <= Rabs th <= PI).
  { split; [apply Rabs_pos|]. apply Rabs_le. lra. }
  set (u := Rabs th) in *. clearbody u. split.
  - intros Hu. split; [apply cos_gt_0; lra|].
    assert (0 <= sin u) by (apply sin_ge_0; lra).
    assert (sin u <= sin (asin x)) by (apply sin_incr_1; lra). nra.
  - intros [Hc Hs]. assert (u < PI / 2).
    { destruct (Rlt_or_le u (PI / 2)); [assumption|]. assert (cos u <= 0) by (apply cos_le_0; lra). lra. }
    destruct (Rle_or_lt u (asin x)); [assumption|].
    assert (0 <= sin (asin x)) by lra.
    assert (sin (asin x) < sin u) by (apply sin_increasing_1; lra). nra.
Qed.

Section S.
Variable k : consts.
Hypothesis kok : consts_ok k.
Variable x : kargs R.
Variable o : orbit R.
Hypothesis H : kep_init k x = Ok o.
Hypothesis ph : physical o.
Hypothesis circ : o_ecc o = None.
Variable r : R.
Hypothesis Hr : 0 <= r.
Hypothesis Ha : o_r_star o + r < o_a o.
Hypothesis Hi : 0 <= o_sin_incl o.

Let F := kep_init_facts k kok x o H ph.

Lemma incl_unit : o_cos_incl o * o_cos_incl o + o_sin_incl o * o_sin_incl o = 1.
Proof.
  rewrite (of_cosi _ _ _ F), (of_sini _ _ _ F). generalize (sin2_cos2' (o_incl o)). lra.
Qed.
Lemma acosi_b : o_a o * o_cos_incl o = o_r_star o * o_b o.
Proof.
  assert (A := ph_a _ ph).
  rewrite (of_cosi_b _ _ _ F), (of_dcosidb _ _ _ F). unfold ecc_of, sinw_of. rewrite circ. field. lra.
Qed.

Lemma transits_circ t : let th := 2 * PI * (t - o_t0 o) / o_period o in
  transits k o r t <-> 0 < o_sin_incl o * cos th /\
    o_a o * o_a o * (o_sin_incl o * o_sin_incl o) * (sin th * sin th)
      <= (o_r_star o + r) * (o_r_star o + r) - o_b o * o_b o * (o_r_star o * o_r_star o).
Proof.
  intro th. unfold transits, pos. destruct (circ_geom k kok x o t H ph circ) as [D Z]. fold th in D, Z.
  rewrite D, Z. assert (A := ph_a _ ph). assert (R := ph_r_star _ ph).
  assert (U := incl_unit). assert (B := acosi_b). assert (S := sin2_cos2' th).
  assert (E : o_a o * o_a o * (sin th * sin th) + o_b o * o_b o * (o_r_star o * o_r_star o) * (cos th * cos th)
     = o_a o * o_a o * (o_sin_incl o * o_sin_incl o) * (sin th * sin th) + o_b o * o_b o * (o_r_star o * o_r_star o)).
  { replace (o_b o * o_b o * (o_r_star o * o_r_star o)) with ((o_a o * o_cos_incl o) * (o_a o * o_cos_incl o)) by (rewrite B; ring).
    replace (o_sin_incl o * o_sin_incl o) with (1 - o_cos_incl o * o_cos_incl o) by lra.
    replace (cos th * cos th) with (1 - sin th * sin th) by lra. ring. }
  rewrite E. set (Q := _ + _ * _ * _).
  assert (HQ : 0 <= Q).
  { unfold Q. rewrite <- E. assert (0 <= sin th * sin th) by nra. assert (0 <= cos th * cos th) by nra.
    assert (0 <= o_b o * o_b o * (o_r_star o * o_r_star o)) by nra. assert (0 <= o_a o * o_a o) by nra. nra. }
  assert (L : sqrt Q <= o_r_star o + r <-> Q <= (o_r_star o + r) * (o_r_star o + r)).
  { assert (P := sqrt_pos Q). assert (PS := sqrt_sqrt Q HQ). split; intro.
    - nra.
    - destruct (Rle_or_lt (sqrt Q) (o_r_star o + r)); [assumption|]. nra. }
  rewrite L. unfold Q. split; intros [H1 H2]; split; try nra.
Qed.

(** impact parameter larger than 1 + r / r_star: no transit at any time *)
Lemma no_transit t : 1 + r / o_r_star o < Rabs (o_b o) -> ~ transits k o r t.
Proof.
  intros Hb T. apply transits_circ in T. destruct T as [_ T].
  assert (R := ph_r_star _ ph). assert (A := ph_a _ ph).
  assert (Hb2 : (o_r_star o + r) * (o_r_star o + r) < o_b o * o_b o * (o_r_star o * o_r_star o)).
  { replace (o_b o * o_b o * (o_r_star o * o_r_star o)) with ((Rabs (o_b o) * o_r_star o) * (Rabs (o_b o) * o_r_star o)).
    2:{ unfold Rabs. destruct (Rcase_abs (o_b o)); ring. }
    assert (o_r_star o + r < Rabs (o_b o) * o_r_star o).
    { replace (o_r_star o + r) with ((1 + r / o_r_star o) * o_r_star o) by (field; lra). apply Rmult_lt_compat_r; assumption. }
    nra. }
  match type of T with _ * (sin ?a * sin ?b) <= _ => assert (0 <= sin a * sin a) by nra end. nra.
Qed.

Definition hdur : R := 0.5 * o_period o * asin (o_r_star o / (o_a o * o_sin_incl o)
   * sqrt ((1 + r / o_r_star o) * (1 + r / o_r_star o) - o_b o * o_b o)) / PI.

Lemma grazing_arg : 0 <= (1 + r / o_r_star o) * (1 + r / o_r_star o) - o_b o * o_b o ->
  0 < o_sin_incl o /\
  let y := o_r_star o / (o_a o * o_sin_incl o) * sqrt ((1 + r / o_r_star o) * (1 + r / o_r_star o) - o_b o * o_b o) in
  0 <= y < 1 /\
  y * y * (o_a o * o_a o * (o_sin_incl o * o_sin_incl o)) =
    (o_r_star o + r) * (o_r_star o + r) - o_b o * o_b o * (o_r_star o * o_r_star o).
Proof.
  intro Harg. set (g := _ - _) in *.
  assert (R := ph_r_star _ ph). assert (A := ph_a _ ph). assert (U := incl_unit). assert (B := acosi_b).
  assert (E : g * (o_r_star o * o_r_star o) = (o_r_star o + r) * (o_r_star o + r) - o_b o * o_b o * (o_r_star o * o_r_star o)).
  { unfold g. field. lra. }
  assert (Q : 0 <= g * (o_r_star o * o_r_star o)) by (apply Rmult_le_pos; nra).
  assert (E2 : o_b o * o_b o * (o_r_star o * o_r_star o) = o_a o * o_a o * (o_cos_incl o * o_cos_incl o)).
  { transitivity ((o_r_star o * o_b o) * (o_r_star o * o_b o)); [ring|]. rewrite <- B. ring. }
  assert (L : (o_r_star o + r) * (o_r_star o + r) < o_a o * o_a o) by nra.
  assert (Si : o_sin_incl o * o_sin_incl o = 1 - o_cos_incl o * o_cos_incl o) by lra.
  assert (Sp : 0 < o_sin_incl o).
  { destruct (Req_dec (o_sin_incl o) 0) as [Z|]; [|lra]. rewrite Z in Si.
    assert (o_cos_incl o * o_cos_incl o = 1) by lra. rewrite H0 in E2. nra. }
  split; [assumption|]. intro y.
  assert (Gp := sqrt_pos g). assert (Gs := sqrt_sqrt g Harg).
  assert (D : 0 < o_a o * o_sin_incl o) by nra.
  assert (Ey : y * y * (o_a o * o_a o * (o_sin_incl o * o_sin_incl o)) = g * (o_r_star o * o_r_star o)).
  { transitivity (sqrt g * sqrt g * (o_r_star o * o_r_star o)); [|rewrite Gs; reflexivity]. unfold y. field. split; lra. }
  assert (Hy : 0 <= y). { unfold y. apply Rmult_le_pos; [|assumption]. apply Rlt_le, Rdiv_lt_0_compat; assumption. }
  split; [split; [assumption|]|rewrite Ey, E; reflexivity].
  assert (W : 0 < o_a o * o_a o * (o_sin_incl o * o_sin_incl o)) by nra.
  assert (y * y * (o_a o * o_a o * (o_sin_incl o * o_sin_incl o)) < 1 * (o_a o * o_a o * (o_sin_incl o * o_sin_incl o))).
  { rewrite Ey, E, E2, Si. nra. }
  assert (y * y < 1) by (apply Rmult_lt_reg_r with (o_a o * o_a o * (o_sin_incl o * o_sin_incl o)); assumption).
  nra.
Qed.

(** times in transit are those within hdur of a mid-transit *)
Lemma transits_hdur (m : Z) d : 0 <= (1 + r / o_r_star o) * (1 + r / o_r_star o) - o_b o * o_b o ->
  - (o_period o / 2) <= d <= o_period o / 2 ->
  (transits k o r (o_t0 o + IZR m * o_period o + d) <-> Rabs d <= hdur).
Proof.
  intros Harg Hd. destruct (grazing_arg Harg) as (Sp & Hy & Ey). unfold hdur.
  set (y := _ * sqrt _) in *. assert (A := ph_a _ ph). assert (P := ph_period _ ph). assert (Hpi := PI_RGT_0).
  assert (T := transits_circ (o_t0 o + IZR m * o_period o + d)). cbv zeta in T. rewrite T. clear T.
  replace (2 * PI * (o_t0 o + IZR m * o_period o + d - o_t0 o) / o_period o)
    with (2 * PI * d / o_period o + 2 * IZR m * PI) by (field; lra).
  rewrite cos_period_Z, sin_period_Z. set (th := 2 * PI * d / o_period o).
  assert (Hth : - PI <= th <= PI).
  { unfold th. split; (apply Rmult_le_reg_r with (o_period o); [assumption|]);
    replace (2 * PI * d / o_period o * o_period o) with (2 * PI * d) by (field; lra); nra. }
  assert (W := asin_window y th Hy Hth).
  assert (Et : Rabs d = 0.5 * o_period o * Rabs th / PI).
  { unfold th. unfold Rdiv. rewrite !Rabs_mult, Rabs_inv. rewrite (Rabs_right 2), (Rabs_right PI), (Rabs_right (o_period o)) by lra.
    replace 0.5 with (/ 2) by lra. field. split; lra. }
  assert (V : Rabs d <= 0.5 * o_period o * asin y / PI <-> Rabs th <= asin y).
  { rewrite Et. assert (Pp : 0 < 0.5 * o_period o / PI) by (apply Rdiv_lt_0_compat; lra).
    replace (0.5 * o_period o * Rabs th / PI) with (0.5 * o_period o / PI * Rabs th) by (unfold Rdiv; ring).
    replace (0.5 * o_period o * asin y / PI) with (0.5 * o_period o / PI * asin y) by (unfold Rdiv; ring).
    split; intro Q; [apply Rmult_le_reg_l with (0.5 * o_period o / PI); assumption|apply Rmult_le_compat_l; lra]. }
  rewrite V, W, <- Ey. 
  assert (Wp : 0 < o_a o * o_a o * (o_sin_incl o * o_sin_incl o)) by (repeat apply Rmult_lt_0_compat; assumption).
  split; intros [H1 H2]; split.
  - apply Rmult_lt_reg_l with (o_sin_incl o); [assumption|]. lra.
  - apply Rmult_le_reg_r with (o_a o * o_a o * (o_sin_incl o * o_sin_incl o)); [assumption|]. lra.
  - nra.
  - rewrite Rmult_comm. apply Rmult_le_compat_r; lra.
Qed.

Lemma hdur_bound : 0 <= (1 + r / o_r_star o) * (1 + r / o_r_star o) - o_b o * o_b o ->
  0 <= hdur < o_period o / 4.
Proof.
  intros Harg. destruct (grazing_arg Harg) as (Sp & Hy & Ey). unfold hdur. set (y := _ * sqrt _) in *.
  assert (P := ph_period _ ph). assert (Hpi := PI_RGT_0).
  assert (B0 := asin_nonneg y ltac:(lra)). assert (B1 := asin_lt_PI2 y Hy). split.
  - apply Rmult_le_pos; [nra|]. apply Rlt_le, Rinv_0_lt_compat; assumption.
  - apply Rmult_lt_reg_r with PI; [assumption|]. replace (0.5 * o_period o * asin y / PI * PI) with (0.5 * o_period o * asin y) by (field; lra).
    nra.
Qed.

(** a time [u] after mid-transit is within e/2 of a transit exactly when its
    wrapped value is within hdur + e/2 *)
Lemma window_pad u e : 0 <= e ->
  0 <= (1 + r / o_r_star o) * (1 + r / o_r_star o) - o_b o * o_b o ->
  let dt := Rmodulo (u + 0.5 * o_period o) (o_period o) - 0.5 * o_period o in
  (Rabs dt <= hdur + e / 2 <-> exists s, Rabs (s - u) <= e / 2 /\ transits k o r (o_t0 o + s)).
Proof.
  intros He Harg dt. assert (P := ph_period _ ph). assert (HB := hdur_bound Harg).
  destruct (wrap_half_eq u (o_period o) P) as (m & Em & Bm). fold dt in Em. 
  assert (Bd : - (o_period o / 2) <= dt <= o_period o / 2) by lra.
  split.
  - intro D. apply Rabs_le_between in D.
    set (d := Rmax (- hdur) (Rmin hdur dt)).
    assert (Dd : - hdur <= d <= hdur /\ - (e / 2) <= d - dt <= e / 2).
    { unfold d, Rmax, Rmin. destruct (Rle_dec hdur dt); destruct (Rle_dec (- hdur) _); lra. }
    exists (IZR m * o_period o + d). split; [apply Rabs_le; lra|].
    rewrite <- Rplus_assoc. apply transits_hdur; [assumption|lra|]. apply Rabs_le. lra.
  - intros (s & Hs & T). destruct (wrap_half_eq s (o_period o) P) as (m' & Em' & Bm').
    set (d := Rmodulo (s + 0.5 * o_period o) (o_period o) - 0.5 * o_period o) in *.
    replace (o_t0 o + s) with (o_t0 o + IZR m' * o_period o + d) in T by lra.
    apply transits_hdur in T; [|assumption|lra].
    apply Rabs_le_between in T. apply Rabs_le_between in Hs. apply Rabs_le.
    assert (C : IZR m' = IZR m \/ IZR m' <= IZR m - 1 \/ IZR m + 1 <= IZR m').
    { destruct (Z.lt_trichotomy m' m) as [K|[K|K]].
      - right; left. rewrite <- minus_IZR. apply IZR_le. lia.
      - left. congruence.
      - right; right. rewrite <- plus_IZR. apply IZR_le. lia. }
    destruct C as [C|[C|C]].
    + rewrite C in *. lra.
    + assert (IZR m' * o_period o <= IZR m * o_period o - o_period o) by nra. lra.
    + assert (IZR m * o_period o + o_period o <= IZR m' * o_period o) by nra. lra.
Qed.
End S.
