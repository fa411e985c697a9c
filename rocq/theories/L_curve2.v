(** * What a transit light curve determines: circular orbits *)
From Coq Require Import Reals Lra Lia Psatz List Bool Arith ZArith.
From Coquelicot Require Import Coquelicot.
From Verif Require Import Num CoreOps Inst CoreFlux M_units M_kepler M_fin M_tensor M_limbdark M_simple Spec_orbit Spec_params Spec_array Spec_simple Spec_light Spec_depth Spec_curve
  L_real L_orbit L_params3 L_params4 L_simple L_transit L_flux L_area L_depth L_light1 L_light3 L_light4 L_light7 L_light8 L_depth2 L_depth3 L_depth4 L_curve.
Import ListNotations.
Open Scope R_scope.

Lemma shining_flux u1 u2 : shining u1 u2 -> disk_flux u1 u2 <> 0.
Proof.
  intros H E. assert (Q := visible_lt (intensity u1 u2) 0 1 (intensity_cont u1 u2) H ltac:(lra) ltac:(lra) ltac:(lra)). rewrite <- disk_full, E in Q.
  rewrite visible_covered_0 in Q by (rewrite ?Rabs_R0, ?Rabs_R1; lra). lra.
Qed.
Section O.
Variables (k : consts) (x : kargs R) (o : orbit R) (r : R).
Hypothesis kok : consts_ok k.
Hypothesis Ho : kep_init k x = Ok o.
Hypothesis ph : physical o.
Hypothesis tr : transiting o r.
Let A := o_a o * o_a o - o_b o * o_b o * (o_r_star o * o_r_star o).
Let B := o_b o * o_b o * (o_r_star o * o_r_star o).
Definition chord (c : R) : R := (c * c - B) / A.
Definition half_time (c : R) : R := o_period o / (2 * PI) * asin (sqrt (chord c)).
Lemma sizes : 0 < A /\ 0 <= B /\ B < (o_r_star o + r) * (o_r_star o + r) < A + B /\ 0 < o_r_star o.
Proof.
  destruct tr as [c1 c2 c3 c4 c5]. assert (Hs := ph_r_star _ ph). assert (Q : B = (Rabs (o_b o) * o_r_star o) * (Rabs (o_b o) * o_r_star o)). { unfold B. assert (S := Rsqr_abs (o_b o)). unfold Rsqr in S. rewrite S. ring. }
  assert (0 <= Rabs (o_b o) * o_r_star o) by (apply Rmult_le_pos; [apply Rabs_pos|lra]). set (q := Rabs (o_b o) * o_r_star o) in *. assert (E : A + B = o_a o * o_a o) by (unfold A, B; ring). assert (0 <= B) by nra. assert (B < (o_r_star o + r) * (o_r_star o + r)) by nra. assert ((o_r_star o + r) * (o_r_star o + r) < A + B) by nra. repeat split; try assumption; lra.
Qed.
Lemma chord_range c : 0 <= c <= o_r_star o + r -> B <= c * c -> 0 <= chord c < 1 /\ (B < c * c -> 0 < chord c).
Proof.
  intros Hc Hb. destruct sizes as (S1 & S2 & S3 & S4). unfold chord. assert (c * c <= (o_r_star o + r) * (o_r_star o + r)) by nra. split; [split|].
  - apply Rdiv_le_0_compat; lra.
  - apply (Rmult_lt_reg_r A); [exact S1|]. unfold Rdiv. rewrite Rmult_assoc, Rinv_l by lra. lra.
  - intro h. apply Rdiv_lt_0_compat; lra.
Qed.
Lemma half_range c : 0 <= c <= o_r_star o + r -> B <= c * c -> 0 <= half_time c < o_period o / 4 /\ (B < c * c -> 0 < half_time c).
Proof.
  intros Hc Hb. destruct (chord_range c Hc Hb) as [C1 C2]. assert (HP := ph_period _ ph). assert (Hpi := PI_RGT_0). assert (K : 0 < o_period o / (2 * PI)) by (apply Rdiv_lt_0_compat; lra). unfold half_time.
  assert (L : asin (sqrt (chord c)) < PI / 2). { destruct (Rle_lt_or_eq_dec 0 (chord c) (proj1 C1)) as [h|h]; [apply asin_sqrt; lra|]. rewrite <- h, sqrt_0, asin_0. lra. }
  assert (G : 0 <= asin (sqrt (chord c)) /\ (B < c * c -> 0 < asin (sqrt (chord c)))). { destruct (Rle_lt_or_eq_dec 0 (chord c) (proj1 C1)) as [h|h]; [assert (Q := asin_sqrt _ (conj h (proj2 C1))); split; lra|]. rewrite <- h, sqrt_0, asin_0. split; [lra|]. intro h'. specialize (C2 h'). lra. }
  split; [split|].
  - apply Rmult_le_pos; lra.
  - replace (o_period o / 4) with (o_period o / (2 * PI) * (PI / 2)) by (field; lra). apply Rmult_lt_compat_l; assumption.
  - intro h. apply Rmult_lt_0_compat; [exact K|apply G, h].
Qed.
Lemma where_it_is (z : Z) d : let p := pos k o Relative (o_t0 o + IZR z * o_period o + d) None false in
  vx p * vx p + vy p * vy p = A * (sin (2 * PI * d / o_period o) * sin (2 * PI * d / o_period o)) + B /\ vz p = o_a o * o_sin_incl o * cos (2 * PI * d / o_period o).
Proof.
  intro p. assert (HP := ph_period _ ph). destruct (circ_geom k kok x o (o_t0 o + IZR z * o_period o + d) Ho ph (tr_circular _ _ tr)) as [G1 G2].
  change (get_relative_position k o (kep_warp o) (o_t0 o + IZR z * o_period o + d) None false) with p in G1, G2.
  assert (E1 : 2 * PI * (o_t0 o + IZR z * o_period o + d - o_t0 o) / o_period o = 2 * PI * d / o_period o + 2 * IZR z * PI) by (field; lra).
  rewrite E1, sin_period_Z, cos_period_Z in G1. rewrite E1, cos_period_Z in G2. split; [|exact G2]. rewrite G1. assert (U := sin2_cos2' (2 * PI * d / o_period o)). set (s := sin _) in *. set (c := cos _) in *. replace (c * c) with (1 - s * s) by lra. unfold A, B. ring.
Qed.
Lemma near_iff c (z : Z) d : 0 <= c <= o_r_star o + r -> B <= c * c -> Rabs d <= o_period o / 2 -> let p := pos k o Relative (o_t0 o + IZR z * o_period o + d) None false in
  (Rabs d < half_time c <-> 0 < vz p /\ apart p < c) /\ (Rabs d <= half_time c <-> 0 < vz p /\ apart p <= c).
Proof.
  intros Hc Hb Hd p. destruct (where_it_is z d) as [G1 G2]. fold p in G1, G2. assert (HP := ph_period _ ph). assert (Hpi := PI_RGT_0). assert (Ha := ph_a _ ph). assert (Si := tr_front _ _ tr). destruct sizes as (S1 & S2 & S3 & S4). destruct (chord_range c Hc Hb) as [C1 _]. destruct (half_range c Hc Hb) as [W _].
  destruct (abs_trig (2 * PI * d / o_period o)) as [T1 T2]. rewrite <- T1 in G1. rewrite <- T2 in G2. set (y := Rabs (2 * PI * d / o_period o)) in *.
  assert (Ey : y = 2 * PI / o_period o * Rabs d). { unfold y. replace (2 * PI * d / o_period o) with (2 * PI / o_period o * d) by (field; lra). rewrite Rabs_mult, (Rabs_pos_eq (2 * PI / o_period o)); [reflexivity|]. left. apply Rdiv_lt_0_compat; lra. }
  assert (K : 0 < 2 * PI / o_period o) by (apply Rdiv_lt_0_compat; lra). assert (Y0 : 0 <= y) by apply Rabs_pos.
  assert (Ew : asin (sqrt (chord c)) = 2 * PI / o_period o * half_time c) by (unfold half_time; field; lra).
  assert (E4 : PI / 2 = 2 * PI / o_period o * (o_period o / 4)) by (field; lra). assert (E2 : PI = 2 * PI / o_period o * (o_period o / 2)) by (field; lra).
  assert (Yp : y <= PI) by (apply Rle_trans with (2 * PI / o_period o * (o_period o / 2)); [rewrite Ey; apply Rmult_le_compat_l; lra|right; field; lra]).
  assert (As : apart p = sqrt (A * (sin y * sin y) + B)) by (unfold apart; rewrite G1; reflexivity).
  destruct (Rlt_dec y (PI / 2)) as [h|h].
  - assert (V : 0 < vz p). { rewrite G2. assert (0 < cos y) by (apply cos_gt_0; lra). repeat apply Rmult_lt_0_compat; lra. }
    destruct (sin2_lt y (chord c) ltac:(lra) C1) as [L1 L2]. rewrite Ew in L1, L2.
    assert (Q0 : 0 <= A * (sin y * sin y) + B) by (assert (Z := Rle_0_sqr (sin y)); unfold Rsqr in Z; assert (0 <= A * (sin y * sin y)) by (apply Rmult_le_pos; lra); lra).
    assert (Ec : A * chord c + B = c * c) by (unfold chord; field; lra).
    split; split.
    + intro H. split; [exact V|]. rewrite As. rewrite <- (sqrt_square c) by lra. apply sqrt_lt_1_alt. split; [exact Q0|]. rewrite <- Ec. assert (sin y * sin y < chord c) by (apply L1; rewrite Ey; apply Rmult_lt_compat_l; lra). assert (A * (sin y * sin y) < A * chord c) by (apply Rmult_lt_compat_l; lra). lra.
    + intros [_ H]. apply (Rmult_lt_reg_l (2 * PI / o_period o)); [exact K|]. rewrite <- Ey. apply L1. apply (Rmult_lt_reg_l A); [exact S1|]. rewrite As, <- (sqrt_square c) in H by lra. apply sqrt_lt_0_alt in H. lra.
    + intro H. split; [exact V|]. rewrite As. rewrite <- (sqrt_square c) by lra. apply sqrt_le_1_alt. rewrite <- Ec. assert (sin y * sin y <= chord c) by (apply L2; rewrite Ey; apply Rmult_le_compat_l; lra). assert (A * (sin y * sin y) <= A * chord c) by (apply Rmult_le_compat_l; lra). lra.
    + intros [_ H]. apply (Rmult_le_reg_l (2 * PI / o_period o)); [exact K|]. rewrite <- Ey. apply L2. apply (Rmult_le_reg_l A); [exact S1|]. rewrite As, <- (sqrt_square c) in H by lra. apply sqrt_le_0 in H; [lra|exact Q0|nra].
  - assert (V : vz p <= 0). { rewrite G2. assert (cos y <= 0) by (apply cos_le_0; lra). assert (0 < o_a o * o_sin_incl o) by (apply Rmult_lt_0_compat; lra). nra. }
    assert (F : o_period o / 4 <= Rabs d). { apply (Rmult_le_reg_l (2 * PI / o_period o)); [exact K|]. lra. }
    split; split; intro H; lra.
Qed.
(** the planet dims the star exactly between the first and the last contact *)
Lemma dims_iff u1 u2 (z : Z) d : shining u1 u2 -> Rabs d <= o_period o / 2 ->
  let v := flux_at u1 u2 (pos k o Relative (o_t0 o + IZR z * o_period o + d) None false) r (o_r_star o) in (v < 0 <-> Rabs d < half_time (o_r_star o + r)) /\ v <= 0.
Proof.
  intros Hs Hd v. assert (D := shining_flux u1 u2 Hs). destruct sizes as (S1 & S2 & S3 & S4). assert (Hr := tr_radius _ _ tr). destruct (near_iff (o_r_star o + r) z d ltac:(lra) ltac:(lra) Hd) as [N _]. set (p := pos k o Relative (o_t0 o + IZR z * o_period o + d) None false) in *.
  assert (Ap : 0 <= apart p) by apply sqrt_pos. assert (K : 0 < r / o_r_star o) by (apply Rdiv_lt_0_compat; lra).
  assert (In : 0 < vz p /\ apart p < o_r_star o + r -> v < 0).
  { intros [h1 h2]. apply rel_flux_in; [exact Hs|exact K| |apply Rdiv_lt_0_compat; assumption]. fold (apart p). rewrite Rabs_pos_eq by (apply Rdiv_le_0_compat; lra). apply (Rmult_lt_reg_r (o_r_star o)); [exact S4|]. replace (apart p / o_r_star o * o_r_star o) with (apart p) by (field; lra). replace ((1 + r / o_r_star o) * o_r_star o) with (o_r_star o + r) by (field; lra). exact h2. }
  assert (Out : ~ (0 < vz p /\ apart p < o_r_star o + r) -> v = 0).
  { intro h. apply rel_flux_out; [exact D|]. fold (apart p). destruct (Rlt_dec 0 (vz p)) as [h1|h1].
    - left. assert (h2 : o_r_star o + r <= apart p) by (apply Rnot_lt_le; intro; apply h; split; assumption). rewrite !Rabs_pos_eq by (try (apply Rdiv_le_0_compat; lra); lra). apply (Rmult_le_reg_r (o_r_star o)); [exact S4|]. replace (apart p / o_r_star o * o_r_star o) with (apart p) by (field; lra). replace ((1 + r / o_r_star o) * o_r_star o) with (o_r_star o + r) by (field; lra). exact h2.
    - right. apply Rnot_lt_le in h1. apply (Rmult_le_reg_r (o_r_star o)); [exact S4|]. replace (vz p / o_r_star o * o_r_star o) with (vz p) by (field; lra). lra. }
  destruct (Rlt_dec (Rabs d) (half_time (o_r_star o + r))) as [h|h].
  - assert (Q := In (proj1 N h)). split; [split; intro; assumption|lra].
  - assert (Q := Out (fun y => h (proj2 N y))). split; [split; intro; lra|lra].
Qed.
(** a uniform star is dimmed most while the whole planet is in front of it *)
Lemma bottom_iff (z : Z) d : full_transit o r -> Rabs d <= o_period o / 2 ->
  let v := flux_at 0 0 (pos k o Relative (o_t0 o + IZR z * o_period o + d) None false) r (o_r_star o) in
  (v = - (r / o_r_star o * (r / o_r_star o)) <-> Rabs d <= half_time (o_r_star o - r)) /\ - (r / o_r_star o * (r / o_r_star o)) <= v.
Proof.
  intros [_ Hf] Hd v. destruct sizes as (S1 & S2 & S3 & S4). assert (Hr := tr_radius _ _ tr). assert (Ab := Rabs_pos (o_b o)).
  assert (Hb : B <= (o_r_star o - r) * (o_r_star o - r)). { assert (Q : B = (Rabs (o_b o) * o_r_star o) * (Rabs (o_b o) * o_r_star o)). { unfold B. assert (S := Rsqr_abs (o_b o)). unfold Rsqr in S. rewrite S. ring. } rewrite Q. assert (0 <= Rabs (o_b o) * o_r_star o) by (apply Rmult_le_pos; lra). apply Rmult_le_compat; lra. }
  assert (H0 : 0 <= Rabs (o_b o) * o_r_star o) by (apply Rmult_le_pos; lra).
  destruct (near_iff (o_r_star o - r) z d ltac:(lra) Hb Hd) as [_ N]. set (p := pos k o Relative (o_t0 o + IZR z * o_period o + d) None false) in *.
  assert (Ap : 0 <= apart p) by apply sqrt_pos. assert (K : 0 < r / o_r_star o) by (apply Rdiv_lt_0_compat; lra). set (q := r / o_r_star o) in *.
  assert (Low : ~ (0 < vz p /\ apart p <= o_r_star o - r) -> - (q * q) < v).
  { intro h. destruct (Rlt_dec 0 (vz p)) as [h1|h1].
    - assert (h2 : o_r_star o - r < apart p) by (apply Rnot_le_lt; intro; apply h; split; assumption). apply (uniform_cut (apart p / o_r_star o) q (vz p / o_r_star o)); [apply Rdiv_le_0_compat; lra|exact K|apply Rdiv_lt_0_compat; assumption|].
      apply (Rmult_lt_reg_r (o_r_star o)); [exact S4|]. unfold q. replace ((apart p / o_r_star o + r / o_r_star o) * o_r_star o) with (apart p + r) by (field; lra). lra.
    - unfold v, flux_at. rewrite rel_flux_out; [nra|rewrite uniform_disk; assert (Hpi := PI_RGT_0); lra|]. right. apply Rnot_lt_le in h1. apply (Rmult_le_reg_r (o_r_star o)); [exact S4|]. replace (vz p / o_r_star o * o_r_star o) with (vz p) by (field; lra). lra. }
  destruct (Rle_dec (Rabs d) (half_time (o_r_star o - r))) as [h|h].
  - destruct (proj1 N h) as [h1 h2]. assert (Q : v = - (q * q)) by (apply flux_flat; lra). split; [split; intro; assumption|lra].
  - assert (Q := Low (fun y => h (proj2 N y))). split; [split; intro; lra|lra].
Qed.
End O.
