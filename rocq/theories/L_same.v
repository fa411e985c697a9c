(** * KeplerianOrbit and SimpleTransitOrbit from the same duration *)
From Coq Require Import Reals Lra Lia Psatz List Bool Arith ZArith.
From Coquelicot Require Import Coquelicot.
From Verif Require Import Num CoreOps Inst CoreFlux M_units M_kepler M_fin M_tensor M_limbdark M_simple M_ttv Spec_orbit Spec_params Spec_array Spec_light Spec_simple Spec_depth Spec_lip Spec_same
  L_real L_flux L_orbit L_motion L_params3 L_params4 L_area L_depth L_lip L_light1 L_light4 L_light7 L_light8 L_depth2 L_depth3 L_depth4 L_simple L_simple2 L_lip2 L_lip3 L_gridacc L_ttv4.
Import ListNotations.
Open Scope R_scope.

(** ** the sine between its chord and its tangent *)
Lemma sin_chord y h : 0 <= y <= 1 -> 0 <= h <= PI -> y * sin h <= sin (y * h).
Proof.
  intros Y H. assert (C := chord (fun u => - sin u) (fun u => - cos u) 0 h y ltac:(lra) Y).
  assert (Q : - sin ((1 - y) * 0 + y * h) <= (1 - y) * - sin 0 + y * - sin h).
  { apply C.
    - intros u _. auto_derive; [exact I|ring].
    - intros u u' H1 H2. assert (cos u' <= cos u); [|lra]. apply cos_decr_1; lra. }
  rewrite sin_0 in Q. replace ((1 - y) * 0 + y * h) with (y * h) in Q by ring. lra.
Qed.
Lemma sin_chord_strict y h : 0 < y < 1 -> 0 < h <= PI -> y * sin h < sin (y * h).
Proof.
  intros Y H. assert (A : 0 < y * h) by (apply Rmult_lt_0_compat; lra). assert (B : y * h < h) by nra.
  assert (D : forall a b, forall c, a <= c <= b -> derivable_pt_lim sin c (cos c)) by (intros; apply derivable_pt_lim_sin).
  destruct (MVT_cor2 sin cos 0 (y * h) A (D _ _)) as (c1 & E1 & I1). destruct (MVT_cor2 sin cos (y * h) h B (D _ _)) as (c2 & E2 & I2).
  rewrite sin_0 in E1. assert (C : cos c2 < cos c1) by (apply cos_decreasing_1; lra).
  assert (S1 : sin (y * h) = cos c1 * (y * h)) by lra. assert (S2 : sin h = cos c1 * (y * h) + cos c2 * (h - y * h)) by lra. rewrite S1, S2.
  assert (0 < y * (1 - y) * h * (cos c1 - cos c2)) by (repeat apply Rmult_lt_0_compat; lra). lra.
Qed.
Lemma sin_low h : 0 <= h -> h - h * h * h / 6 <= sin h.
Proof.
  intro H. set (f := fun u => sin u - u + u * u * u / 6).
  assert (Q : forall u, 0 <= u -> 0 <= cos u - 1 + u * u / 2).
  { intros u Hu. set (g := fun v => cos v - 1 + v * v / 2).
    destruct (MVT_gen g 0 u (fun v => - sin v + v)) as (c & Hc & E).
    - intros v _. unfold g. auto_derive; [exact I|field].
    - intros v _. apply continuity_pt_filterlim. apply (ex_derive_continuous (V := R_NormedModule)). unfold g. auto_derive. exact I.
    - rewrite Rmin_left, Rmax_right in Hc by lra. assert (S : sin c <= c).
      { destruct (Req_dec c 0) as [->|n]; [rewrite sin_0; lra|]. left. apply sin_lt_x. lra. }
      unfold g in E. rewrite cos_0 in E. assert (0 <= (- sin c + c) * (u - 0)) by (apply Rmult_le_pos; lra). lra. }
  destruct (MVT_gen f 0 h (fun v => cos v - 1 + v * v / 2)) as (c & Hc & E).
  - intros v _. unfold f. auto_derive; [exact I|field].
  - intros v _. apply continuity_pt_filterlim. apply (ex_derive_continuous (V := R_NormedModule)). unfold f. auto_derive. exact I.
  - rewrite Rmin_left, Rmax_right in Hc by lra. unfold f in E. rewrite sin_0 in E. assert (A := Q c ltac:(lra)).
    assert (0 <= (cos c - 1 + c * c / 2) * (h - 0)) by (apply Rmult_le_pos; lra). lra.
Qed.
(** the sine over its value at h, compared to the straight line *)
Lemma sin_ratio y h : 0 <= y <= 1 -> 0 < h < PI / 2 -> y <= sin (y * h) / sin h <= y + h * h / 6 / (1 - h * h / 6) /\ h * h / 6 < 1.
Proof.
  intros Y H. assert (P4 := PI_4). assert (S0 : 0 < sin h) by (apply sin_gt_0; lra).
  assert (H6 : h * h / 6 < 1) by nra. split; [|exact H6]. split.
  - apply (Rmult_le_reg_r (sin h)); [exact S0|]. unfold Rdiv. rewrite Rmult_assoc, Rinv_l, Rmult_1_r by lra. apply sin_chord; lra.
  - assert (L := sin_low h ltac:(lra)). set (g := 1 - h * h / 6) in *. assert (G0 : 0 < g) by (unfold g; lra).
    assert (U : sin (y * h) <= y * h). { destruct (Req_dec (y * h) 0) as [->|n]; [rewrite sin_0; lra|]. left. apply sin_lt_x. assert (0 <= y * h) by (apply Rmult_le_pos; lra). lra. }
    apply (Rmult_le_reg_r (sin h)); [exact S0|]. unfold Rdiv at 1. rewrite Rmult_assoc, Rinv_l, Rmult_1_r by lra.
    apply Rle_trans with (y * h); [exact U|]. replace (y * h) with (y / g * (h * g)) by (field; lra).
    assert (E : h * g <= sin h) by (unfold g; lra). apply Rle_trans with (y / g * sin h).
    + apply Rmult_le_compat_l; [apply Rdiv_le_0_compat; lra|exact E].
    + apply Rmult_le_compat_r; [lra|]. replace (y / g) with (y + y * (h * h / 6 / g)) by (unfold g in *; field; lra).
      apply Rplus_le_compat_l. assert (0 <= h * h / 6 / g) by (apply Rdiv_le_0_compat; nra). nra.
Qed.
Lemma t0_same k (x : kargs R) o (v : option R) : kep_init k x = Ok o -> ka_t0 x = v -> ka_tper x = None -> o_t0 o = dflt 0 v.
Proof.
  intros H <- Hp. destruct (ka_t0 x) as [t|] eqn:E.
  - exact (L_ttv4.init_t0 k x o t H E).
  - apply (neither_time k x). rewrite <- H. f_equal. destruct x; cbn in *; subst; reflexivity.
Qed.
Section S.
Variables (k : consts) (x : kargs R) (o : orbit R) (s : sargs R).
Hypothesis kok : consts_ok k.
Hypothesis Ho : kep_init k x = Ok o.
Hypothesis ph : physical o.
Hypothesis sm : same_transit x s.
Local Notation b := (dflt 0 (sa_b s)).
Local Notation r := (dflt 1 (sa_r_star s)).
Local Notation ror := (dflt 0 (sa_ror s)).
Local Notation D := (sa_duration s).
Local Notation P := (sa_period s).
Local Notation Q t := (pos k o Relative t None false).
Local Notation h := (PI * D / P).
Lemma same_attrs : o_period o = P /\ o_r_star o = r /\ o_b o = b /\ o_ecc o = None /\ o_t0 o = dflt 0 (sa_t0 s).
Proof.
  destruct (dur_init k x o D P b (sa_r_star s) Ho (st_ecc _ _ sm) (st_duration _ _ sm) (st_period _ _ sm) (st_b _ _ sm) (st_r_star _ _ sm)) as (E1 & E2 & E3 & E4 & _ & _).
  split; [exact E1|]. split; [exact E2|]. split; [exact E3|]. split; [exact E4|]. exact (t0_same k x o _ Ho (st_t0 _ _ sm) (st_tper _ _ sm)).
Qed.
Lemma r_pos : 0 < r. Proof. destruct same_attrs as (_ & E & _). rewrite <- E. apply (ph_r_star _ ph). Qed.
Lemma same_ok : simple_ok s.
Proof.
  assert (R0 := st_range _ _ sm). assert (C0 := st_chord _ _ sm). split; [lra|lra|apply r_pos|]. rewrite Rabs_pos_eq by lra. lra.
Qed.
Lemma h_range : 0 < h < PI / 2.
Proof.
  assert (R0 := st_range _ _ sm). assert (Hpi := PI_RGT_0). split; [apply Rdiv_lt_0_compat; [apply Rmult_lt_0_compat|]; lra|].
  apply (Rmult_lt_reg_r P); [lra|]. replace (h * P) with (PI * D) by (field; lra). replace (PI / 2 * P) with (PI * (P / 2)) by field. apply Rmult_lt_compat_l; lra.
Qed.
Lemma half_chord_sq : 0 <= half_chord s /\ half_chord s * half_chord s = r * r * ((1 + ror) * (1 + ror) - b * b).
Proof.
  assert (A := s_arg s same_ok). assert (R0 := r_pos). unfold half_chord. split; [apply Rmult_le_pos; [lra|apply sqrt_pos]|].
  set (w := _ - _) in *. assert (W := sqrt_sqrt w A). replace (r * sqrt w * (r * sqrt w)) with (r * r * (sqrt w * sqrt w)) by ring. rewrite W. reflexivity.
Qed.
Lemma L_sq : r * (1 + ror) * (r * (1 + ror)) = half_chord s * half_chord s + b * r * (b * r).
Proof. destruct half_chord_sq as [_ E]. rewrite E. ring. Qed.
(** the four clauses of the transit from C08 *)
Lemma same_transits :
  (forall m : Z, apart (Q (smid s m - D / 2)) = r * (1 + ror) /\ apart (Q (smid s m + D / 2)) = r * (1 + ror)) /\
  (forall (m : Z) t, Rabs (t - smid s m) < D / 2 -> apart (Q t) < r * (1 + ror)) /\
  (forall (m : Z) t, Rabs (t - smid s m) <= D / 2 -> 0 < vz (Q t)) /\
  (forall t, apart (Q t) <= r * (1 + ror) -> 0 < vz (Q t) -> exists m : Z, Rabs (t - smid s m) <= D / 2).
Proof.
  destruct same_attrs as (E1 & E2 & E3 & E4 & E5).
  assert (T := dur_transit k kok x o D P b (sa_r_star s) Ho ph (st_ecc _ _ sm) (st_duration _ _ sm) (st_period _ _ sm) (st_b _ _ sm) (st_r_star _ _ sm)).
  cbv zeta in T. rewrite (st_ror _ _ sm) in T. change (match sa_ror s with Some r0 => r0 | None => 0 end) with ror in T. rewrite E2, E5 in T.
  exact (T (st_range _ _ sm) (st_chord _ _ sm)).
Qed.
Lemma gap : exists K, 0 <= K /\ K * sin h = half_chord s /\
  forall (m : Z) t, apart (Q t) = sqrt (K * sin (2 * PI * (t - smid s m) / P) * (K * sin (2 * PI * (t - smid s m) / P)) + b * r * (b * r)).
Proof.
  destruct same_attrs as (E1 & E2 & E3 & E4 & E5). assert (R0 := st_range _ _ sm). assert (HR := r_pos). destruct half_chord_sq as [C0 CC]. assert (H := h_range). assert (Sh : 0 < sin h) by (apply sin_gt_0; lra).
  assert (G : forall (m : Z) t, vx (Q t) * vx (Q t) + vy (Q t) * vy (Q t) = (o_a o * o_a o - b * r * (b * r)) * (sin (2 * PI * (t - smid s m) / P) * sin (2 * PI * (t - smid s m) / P)) + b * r * (b * r)).
  { intros m t. destruct (circ_geom k kok x o t Ho ph E4) as [G1 _]. rewrite E1, E2, E3, E5 in G1.
    change (get_relative_position k o (kep_warp o) t None false) with (Q t) in G1. rewrite G1. clear G1.
    replace (2 * PI * (t - dflt 0 (sa_t0 s)) / P) with (2 * PI * (t - smid s m) / P + 2 * IZR m * PI) by (unfold smid; field; lra).
    rewrite sin_period_Z, cos_period_Z. assert (U := sin2_cos2' (2 * PI * (t - smid s m) / P)). set (sn := sin (2 * PI * (t - smid s m) / P)) in *. set (cs := cos (2 * PI * (t - smid s m) / P)) in *.
    replace (cs * cs) with (1 - sn * sn) by lra. ring. }
  assert (E0 : (o_a o * o_a o - b * r * (b * r)) * (sin h * sin h) = half_chord s * half_chord s).
  { destruct same_transits as (T1 & _). destruct (T1 0%Z) as [_ T]. unfold apart in T. rewrite (G 0%Z) in T.
    replace (2 * PI * (smid s 0 + D / 2 - smid s 0) / P) with h in T by (field; lra).
    assert (Z0 : 0 <= (o_a o * o_a o - b * r * (b * r)) * (sin h * sin h) + b * r * (b * r)).
    { assert (GG := G 0%Z (smid s 0 + D / 2)). replace (2 * PI * (smid s 0 + D / 2 - smid s 0) / P) with h in GG by (field; lra). rewrite <- GG. apply Rplus_le_le_0_compat; apply Rle_0_sqr. }
    assert (W := sqrt_sqrt _ Z0). rewrite T in W. assert (L := L_sq). lra. }
  exists (half_chord s / sin h). split; [apply Rdiv_le_0_compat; lra|]. split; [field; lra|]. intros m t. unfold apart. rewrite (G m). f_equal. f_equal.
  set (sn := sin (2 * PI * (t - smid s m) / P)). apply (Rmult_eq_reg_r (sin h * sin h)); [|nra].
  replace ((o_a o * o_a o - b * r * (b * r)) * (sn * sn) * (sin h * sin h)) with ((o_a o * o_a o - b * r * (b * r)) * (sin h * sin h) * (sn * sn)) by ring. rewrite E0. field. lra.
Qed.
Lemma sdist_eq t : sdist s t = reach s (Rabs (sdt s t)).
Proof.
  unfold sdist, sx, sy, reach. rewrite spos_eq. cbn [fst snd]. f_equal. rewrite Rplus_0_r. f_equal.
  replace (sspeed s * Rabs (sdt s t) * (sspeed s * Rabs (sdt s t))) with (sspeed s * sspeed s * (Rabs (sdt s t) * Rabs (sdt s t))) by ring.
  rewrite <- Rabs_mult, (Rabs_pos_eq (sdt s t * sdt s t)) by apply Rle_0_sqr. ring.
Qed.
Lemma sspeed_half : sspeed s = 2 * half_chord s / D.
Proof. rewrite (sspeed_chord s same_ok). reflexivity. Qed.
Lemma hyp_lip p q c : 0 <= p <= q -> sqrt (p * p + c * c) <= sqrt (q * q + c * c) <= sqrt (p * p + c * c) + (q - p).
Proof.
  intro H. assert (C0 : 0 <= c * c) by apply Rle_0_sqr. split; [apply sqrt_le_1_alt; nra|].
  set (w := sqrt (p * p + c * c)). assert (W0 : 0 <= w) by apply sqrt_pos. assert (WW : w * w = p * p + c * c) by (apply sqrt_sqrt; nra). assert (p <= w) by (apply Rsqr_incr_0_var; [unfold Rsqr; lra|exact W0]).
  rewrite <- (sqrt_square (w + (q - p))) by lra. apply sqrt_le_1_alt. nra.
Qed.
(** during the transit *)
Lemma same_near (m : Z) t : Rabs (t - smid s m) <= D / 2 -> sdist s t <= apart (Q t) <= sdist s t + half_chord s * bend s.
Proof.
  intro H. assert (R0 := st_range _ _ sm). destruct gap as (K & K0 & Kh & G). rewrite (G m), sdist_eq. assert (Hh := h_range). assert (Sh : 0 < sin h) by (apply sin_gt_0; lra).
  rewrite (simple_near s t m) by lra. unfold reach. rewrite sspeed_half. destruct half_chord_sq as [C0 _].
  set (u := t - smid s m) in *. set (y := 2 * Rabs u / D). assert (U0 := Rabs_pos u).
  assert (Y : 0 <= y <= 1). { unfold y. split; [apply Rdiv_le_0_compat; lra|]. apply (Rmult_le_reg_r D); [lra|]. unfold Rdiv. rewrite Rmult_assoc, Rinv_l by lra. lra. }
  destruct (sin_ratio y h Y Hh) as [[Y1 Y2] _].
  replace (2 * half_chord s / D * Rabs u) with (half_chord s * y) by (unfold y; field; lra).
  assert (E : K * sin (2 * PI * u / P) * (K * sin (2 * PI * u / P)) = half_chord s * (sin (y * h) / sin h) * (half_chord s * (sin (y * h) / sin h))).
  { replace (half_chord s * (sin (y * h) / sin h)) with (K * sin (y * h)) by (rewrite <- Kh; field; lra).
    replace (y * h) with (2 * PI * Rabs u / P) by (unfold y; field; lra).
    unfold Rabs. destruct (Rcase_abs u); [|reflexivity]. replace (2 * PI * - u / P) with (- (2 * PI * u / P)) by (field; lra). rewrite sin_neg. ring. }
  rewrite E. change (h * h / 6 / (1 - h * h / 6)) with (bend s) in Y2.
  assert (A : half_chord s * y <= half_chord s * (sin (y * h) / sin h)) by (apply Rmult_le_compat_l; lra).
  assert (B : half_chord s * (sin (y * h) / sin h) <= half_chord s * (y + bend s)) by (apply Rmult_le_compat_l; lra).
  assert (Q := hyp_lip (half_chord s * y) (half_chord s * (sin (y * h) / sin h)) (b * r) ltac:(split; [apply Rmult_le_pos; lra|exact A])).
  lra.
Qed.
Lemma same_strict (m : Z) t : 0 < Rabs (t - smid s m) < D / 2 -> sdist s t < apart (Q t).
Proof.
  intro H. assert (R0 := st_range _ _ sm). destruct gap as (K & K0 & Kh & G). rewrite (G m), sdist_eq. assert (Hh := h_range). assert (Sh : 0 < sin h) by (apply sin_gt_0; lra).
  rewrite (simple_near s t m) by lra. unfold reach. rewrite sspeed_half. assert (C1 : 0 < half_chord s).
  { assert (HR := r_pos). assert (Ch := st_chord _ _ sm). unfold half_chord. apply Rmult_lt_0_compat; [exact HR|]. apply sqrt_lt_R0. nra. }
  set (u := t - smid s m) in *. set (y := 2 * Rabs u / D).
  assert (Y : 0 < y < 1). { unfold y. split; [apply Rdiv_lt_0_compat; lra|]. apply (Rmult_lt_reg_r D); [lra|]. unfold Rdiv. rewrite Rmult_assoc, Rinv_l by lra. lra. }
  assert (Y1 := sin_chord_strict y h Y ltac:(lra)).
  replace (2 * half_chord s / D * Rabs u) with (half_chord s * y) by (unfold y; field; lra).
  assert (E : K * sin (2 * PI * u / P) * (K * sin (2 * PI * u / P)) = K * sin (y * h) * (K * sin (y * h))).
  { replace (y * h) with (2 * PI * Rabs u / P) by (unfold y; field; lra).
    unfold Rabs. destruct (Rcase_abs u); [|reflexivity]. replace (2 * PI * - u / P) with (- (2 * PI * u / P)) by (field; lra). rewrite sin_neg. ring. }
  rewrite E, <- Kh. assert (K1 : 0 < K) by nra. assert (Q : K * sin h * y < K * sin (y * h)) by (rewrite Rmult_assoc; apply Rmult_lt_compat_l; lra).
  assert (P0 : 0 < K * sin h * y) by (apply Rmult_lt_0_compat; [apply Rmult_lt_0_compat; assumption|lra]). assert (B0 := Rle_0_sqr (b * r)). unfold Rsqr in B0. set (p := K * sin h * y) in *. set (q := K * sin (y * h)) in *. set (c := b * r * (b * r)) in *. apply sqrt_lt_1_alt. split; [nra|]. assert (p * p < q * q) by nra. lra.
Qed.
Lemma sz_iff t : 0 < sz s t <-> exists m : Z, Rabs (t - smid s m) < D / 2.
Proof.
  unfold sz. rewrite spos_eq. cbn [snd]. assert (HP := so_period _ same_ok). replace (0.5 * D) with (D / 2) by lra. rewrite <- (sdt_lt s t (D / 2) HP).
  destruct (Rltb (Rabs (sdt s t)) (D / 2)) eqn:B.
  - apply L_real.Rltb_true in B. split; [intros _; exact B|intros _; lra].
  - apply L_real.Rltb_false in B. split; intro H; lra.
Qed.
Lemma same_geometry :
  (forall t, 0 < sz s t <-> 0 < vz (Q t) /\ apart (Q t) < r * (1 + ror)) /\
  (forall t, 0 < sz s t -> sdist s t <= apart (Q t) <= sdist s t + half_chord s * bend s) /\
  (forall (m : Z) t, 0 < Rabs (t - smid s m) < D / 2 -> sdist s t < apart (Q t)) /\
  (forall m : Z, apart (Q (smid s m)) = b * r /\ sdist s (smid s m) = b * r) /\
  (forall m : Z, apart (Q (smid s m - D / 2)) = r * (1 + ror) /\ apart (Q (smid s m + D / 2)) = r * (1 + ror) /\
                 sdist s (smid s m - D / 2) = r * (1 + ror) /\ sdist s (smid s m + D / 2) = r * (1 + ror)).
Proof.
  destruct same_transits as (T1 & T2 & T3 & T4). assert (R0 := st_range _ _ sm). assert (HR := r_pos). assert (C0 := st_chord _ _ sm). split; [|split; [|split; [|split]]].
  - intro t. rewrite sz_iff. split.
    + intros (m & H). split; [apply (T3 m); lra|apply (T2 m), H].
    + intros (H1 & H2). destruct (T4 t ltac:(lra) H1) as (m & H). exists m. destruct (Rle_lt_or_eq_dec _ _ H) as [l|e]; [exact l|exfalso].
      destruct (T1 m) as [Ta Tb]. unfold Rabs in e. destruct (Rcase_abs (t - smid s m)).
      * replace t with (smid s m - D / 2) in H2 by lra. lra.
      * replace t with (smid s m + D / 2) in H2 by lra. lra.
  - intros t H. apply sz_iff in H. destruct H as (m & H). apply (same_near m). lra.
  - exact same_strict.
  - intro m. destruct gap as (K & K0 & Kh & G). assert (B0 : 0 <= b * r) by (apply Rmult_le_pos; lra). split.
    + rewrite (G m). replace (2 * PI * (smid s m - smid s m) / P) with 0 by (field; lra). rewrite sin_0. replace (K * 0 * (K * 0) + b * r * (b * r)) with (b * r * (b * r)) by ring. apply sqrt_square. exact B0.
    + rewrite sdist_eq, (simple_near s _ m) by (try lra; rewrite Rminus_diag_eq, Rabs_R0 by reflexivity; lra). rewrite Rminus_diag_eq, Rabs_R0 by reflexivity. unfold reach. replace (sspeed s * 0 * (sspeed s * 0) + b * r * (b * r)) with (b * r * (b * r)) by ring. apply sqrt_square. exact B0.
  - assert (W : reach s (D / 2) = r * (1 + ror)).
    { unfold reach. rewrite sspeed_half. replace (2 * half_chord s / D * (D / 2)) with (half_chord s) by (field; lra). rewrite <- L_sq. apply sqrt_square. apply Rmult_le_pos; lra. }
    intro m. destruct (T1 m) as [Ta Tb]. split; [exact Ta|]. split; [exact Tb|]. rewrite !sdist_eq, !(simple_near s _ m); try lra.
    + replace (smid s m - D / 2 - smid s m) with (- (D / 2)) by ring. replace (smid s m + D / 2 - smid s m) with (D / 2) by ring. rewrite Rabs_Ropp, Rabs_pos_eq by lra. split; exact W.
    + replace (smid s m + D / 2 - smid s m) with (D / 2) by ring. rewrite Rabs_pos_eq; lra.
    + replace (smid s m - D / 2 - smid s m) with (- (D / 2)) by ring. rewrite Rabs_Ropp, Rabs_pos_eq; lra.
Qed.
(** the fluxes *)
Lemma same_out u1 u2 R t : disk_flux u1 u2 <> 0 -> 0 <= R <= ror * r -> sz s t <= 0 -> flux_at u1 u2 (Q t) R r = 0 /\ flux_at u1 u2 (spos s t) R r = 0.
Proof.
  intros Hd HR0 Hz. assert (HR := r_pos). destruct same_geometry as (G1 & _). split; unfold flux_at; apply rel_flux_out; try exact Hd.
  - destruct (Rlt_dec 0 (vz (Q t))) as [h1|h1]; [left|right; unfold Rdiv; assert (I := Rinv_0_lt_compat _ HR); nra].
    destruct (Rlt_dec (apart (Q t)) (r * (1 + ror))) as [h2|h2]; [exfalso; assert (0 < sz s t) by (apply G1; split; assumption); lra|].
    fold (apart (Q t)). assert (A0 : 0 <= apart (Q t)) by apply sqrt_pos. rewrite !Rabs_pos_eq by (apply Rdiv_le_0_compat; lra).
    apply (Rmult_le_reg_r r); [exact HR|]. replace ((1 + R / r) * r) with (r + R) by (field; lra). replace (apart (Q t) / r * r) with (apart (Q t)) by (field; lra). lra.
  - right. unfold sz in Hz. change (snd (spos s t)) with (vz (spos s t)) in Hz. unfold Rdiv. assert (I := Rinv_0_lt_compat _ HR). nra.
Qed.
Lemma same_flux_le u1 u2 R t : bright u1 u2 -> darkening u1 u2 -> disk_flux u1 u2 <> 0 -> 0 <= R <= ror * r -> flux_at u1 u2 (spos s t) R r <= flux_at u1 u2 (Q t) R r.
Proof.
  intros Hb Hk Hd HR0. assert (HR := r_pos). destruct (Rlt_dec 0 (sz s t)) as [h1|h1].
  - apply flux_nearer; try assumption.
    + intros _. left. destruct same_geometry as (_ & G2 & _). apply (G2 t h1).
    + intro H. change (sz s t <= 0) in H. lra.
  - destruct (same_out u1 u2 R t Hd HR0 ltac:(lra)) as [-> ->]. lra.
Qed.
Lemma bend_pos : 0 <= bend s.
Proof.
  assert (H := h_range). destruct (sin_ratio 0 h ltac:(lra) H) as [_ H6]. unfold bend. apply Rdiv_le_0_compat; nra.
Qed.
Lemma same_flux_close u1 u2 R t : disk_flux u1 u2 <> 0 -> 0 <= R <= ror * r ->
  Rabs (flux_at u1 u2 (Q t) R r - flux_at u1 u2 (spos s t) R r) <= weight u1 u2 * (4 * (R / r) * (half_chord s / r) * bend s).
Proof.
  intros Hd HR0. assert (HR := r_pos). assert (W := weight_pos u1 u2 Hd). destruct half_chord_sq as [C0 _]. assert (B0 := bend_pos). assert (R1 : 0 <= R / r) by (apply Rdiv_le_0_compat; lra).
  destruct (Rlt_dec 0 (sz s t)) as [h1|h1].
  - destruct same_geometry as (G1 & G2 & _). assert (N := G2 t h1). apply G1 in h1 as h2. destruct h2 as [h2 _]. unfold flux_at. fold (apart (Q t)) (apart (spos s t)). change (apart (spos s t)) with (sdist s t).
    eapply Rle_trans; [apply rel_lip; [exact Hd|apply Rdiv_lt_0_compat; lra|apply Rdiv_lt_0_compat; [exact h1|lra]]|]. apply Rmult_le_compat_l; [lra|].
    assert (A0 : 0 <= apart (Q t)) by apply sqrt_pos. assert (A1 : 0 <= sdist s t) by apply sqrt_pos. rewrite (Rabs_pos_eq (R / r)), (Rabs_pos_eq (apart (Q t) / r)), (Rabs_pos_eq (sdist s t / r)) by (try assumption; apply Rdiv_le_0_compat; lra).
    rewrite (Rmult_assoc (4 * (R / r))). apply Rmult_le_compat_l; [lra|].
    replace (apart (Q t) / r - sdist s t / r) with ((apart (Q t) - sdist s t) * / r) by (field; lra). rewrite Rabs_mult, (Rabs_pos_eq (/ r)) by (left; apply Rinv_0_lt_compat; exact HR).
    replace (half_chord s / r * bend s) with (half_chord s * bend s * / r) by (field; lra). apply Rmult_le_compat_r; [left; apply Rinv_0_lt_compat; exact HR|]. rewrite Rabs_pos_eq by lra. lra.
  - destruct (same_out u1 u2 R t Hd HR0 ltac:(lra)) as [-> ->]. rewrite Rminus_0_r, Rabs_R0. apply Rmult_le_pos; [lra|]. apply Rmult_le_pos; [|exact B0]. apply Rmult_le_pos; [lra|]. apply Rdiv_le_0_compat; lra.
Qed.
Lemma same_flux_mid u1 u2 R (m : Z) : disk_flux u1 u2 <> 0 -> flux_at u1 u2 (Q (smid s m)) R r = flux_at u1 u2 (spos s (smid s m)) R r.
Proof.
  intros Hd. assert (HR := r_pos). assert (R0 := st_range _ _ sm). destruct same_geometry as (G1 & _ & _ & G3 & _). destruct (G3 m) as [A B]. unfold flux_at. fold (apart (Q (smid s m))) (apart (spos s (smid s m))).
  change (apart (spos s (smid s m))) with (sdist s (smid s m)). rewrite A, B. assert (Z1 : 0 < sz s (smid s m)) by (apply sz_iff; exists m; rewrite Rminus_diag_eq, Rabs_R0 by reflexivity; lra).
  assert (Z2 := proj1 (proj1 (G1 _) Z1)). unfold rel_flux.
  assert (0 < vz (Q (smid s m)) / r) by (apply Rdiv_lt_0_compat; assumption). assert (0 < vz (spos s (smid s m)) / r) by (apply Rdiv_lt_0_compat; assumption).
  destruct (Rlt_dec 0 (vz (Q (smid s m)) / r)) as [i1|i1]; [|contradiction]. destruct (Rlt_dec 0 (vz (spos s (smid s m)) / r)) as [i2|i2]; [reflexivity|contradiction].
Qed.
End S.
(** ** light curves *)
Section L.
Variables (u1 u2 : R) (k : consts) (n : nat) (x : kargs tens) (xs : nat -> kargs R) (os : nat -> orbit R) (o : orbit tens) (cp : tens -> tens -> tens -> tens -> tens -> tens -> tens -> tens * tens * tens).
Variables (y : sargs tens) (ys : nat -> sargs R) (r : tens) (rs : nat -> R) (N : nat) (t : tens) (ts : nat -> R) (texp : option tens) (es : nat -> R) (osam order : Z).
Hypothesis Hd : disk_flux u1 u2 <> 0.
Hypothesis kok : consts_ok k.
Hypothesis sys : system k n x xs os.
Hypothesis Ho : kep_init k x = Ok o.
Hypothesis ssys : simple_system n y ys.
Hypothesis sm : forall j, (j < n)%nat -> same_transit (xs j) (ys j).
Hypothesis Hr : elements n r rs.
Hypothesis Hle : forall j, (j < n)%nat -> 0 <= rs j <= dflt 0 (sa_ror (ys j)) * dflt 1 (sa_r_star (ys j)).
Hypothesis Ht : is_vector N t.
Hypothesis Hts : forall m, (m < N)%nat -> aget t (at_time m) = Fin (ts m).
Hypothesis He : opt_exposures N texp es.
Hypothesis Hst : texp <> None -> exists nodes weights, stencil osam order = Ok (nodes, weights).
Local Notation lcK := (get_light_curve (ld_init (Fin u1) (Fin u2)) (Some (kep_api k cp o)) (Some r) (Some t) texp osam order (Some false) false).
Local Notation lcS := (get_light_curve (ld_init (Fin u1) (Fin u2)) (Some (simple_api (simple_init y))) (Some r) (Some t) texp osam order (Some false) false).
Local Notation fK j s := (flux_at u1 u2 (pos k (os j) Relative s None false) (rs j) (dflt 1 (sa_r_star (ys j)))).
Local Notation fS j s := (flux_at u1 u2 (spos (ys j) s) (rs j) (dflt 1 (sa_r_star (ys j)))).
Let ini j (Hj : (j < n)%nat) := sy_init _ _ _ _ _ sys j Hj.
Let phy j (Hj : (j < n)%nat) := sy_phys _ _ _ _ _ sys j Hj.
Lemma both_curves : exists X Y f g, lcK = Ok X /\ lcS = Ok Y /\ light_table n N X f /\ light_table n N Y g /\
  match texp with
  | None => forall m j, (j < n)%nat -> f m j = fK j (ts m) /\ g m j = fS j (ts m)
  | Some _ => exists nodes weights, stencil osam order = Ok (nodes, weights) /\ forall m j, (j < n)%nat ->
      f m j = node_mean nodes weights (fun s => fK j s) (ts m) (es m) /\ g m j = node_mean nodes weights (fun s => fS j s) (ts m) (es m)
  end.
Proof.
  destruct (kepler_answers k n x xs os o cp kok sys Ho) as [HA Hs].
  destruct (simple_answers n y ys ssys (fun j Hj => same_ok k (xs j) (os j) (ys j) (ini j Hj) (phy j Hj) (sm j Hj))) as [HB Hq].
  destruct (curve_of u1 u2 _ false n _ _ r rs N t ts texp es osam order Hd HA Hs (fun j Hj => ph_r_star _ (phy j Hj)) Hr Ht Hts He Hst) as (X & f & EX & TX & F).
  destruct (curve_of u1 u2 _ false n _ _ r rs N t ts texp es osam order Hd HB Hq (fun j Hj => r_pos k (xs j) (os j) (ys j) (ini j Hj) (phy j Hj) (sm j Hj)) Hr Ht Hts He Hst) as (Y & g & EY & TY & G).
  exists X, Y, f, g. split; [exact EX|]. split; [exact EY|]. split; [exact TX|]. split; [exact TY|].
  assert (ER : forall j, (j < n)%nat -> o_r_star (os j) = dflt 1 (sa_r_star (ys j))) by (intros j Hj; apply (same_attrs k (xs j) (os j) (ys j) (ini j Hj) (sm j Hj))).
  destruct texp.
  - destruct F as (nodes & weights & St & F). destruct G as (nodes' & weights' & St' & G). rewrite St in St'. injection St' as <- <-. exists nodes, weights. split; [exact St|].
    intros m j Hj. rewrite F, G, (ER j Hj). split; reflexivity.
  - intros m j Hj. rewrite F, G, (ER j Hj). split; reflexivity.
Qed.
Lemma same_deeper : bright u1 u2 -> darkening u1 u2 -> deeper n N lcK lcS.
Proof.
  intros Hb Hk. destruct both_curves as (X & Y & f & g & EX & EY & TX & TY & F). exists X, Y, f, g. split; [exact EX|]. split; [exact EY|]. split; [exact TX|]. split; [exact TY|]. intros m j Hm Hj.
  destruct texp.
  - destruct F as (nodes & weights & St & F). destruct (F m j Hj) as [-> ->]. apply mean_le; [apply (quadrature _ _ _ _ St)|]. intros q _. apply (same_flux_le k (xs j)); auto.
  - destruct (F m j Hj) as [-> ->]. apply (same_flux_le k (xs j)); auto.
Qed.
Lemma same_close : close_tables n N lcK lcS (fun m j => weight u1 u2 * (4 * (rs j / dflt 1 (sa_r_star (ys j))) * (half_chord (ys j) / dflt 1 (sa_r_star (ys j))) * bend (ys j))).
Proof.
  destruct both_curves as (X & Y & f & g & EX & EY & TX & TY & F). exists X, Y, f, g. split; [exact EX|]. split; [exact EY|]. split; [exact TX|]. split; [exact TY|]. intros m j Hm Hj.
  set (d := weight u1 u2 * _). assert (C : forall q, Rabs (fK j q - fS j q) <= d) by (intro q; apply (same_flux_close k (xs j)); auto).
  destruct texp.
  - destruct F as (nodes & weights & St & F). destruct (F m j Hj) as [-> ->]. destruct (quadrature _ _ _ _ St) as (Ln & _ & _ & Wp & W1 & _).
    replace d with (d * fold_right Rplus 0 weights) by (rewrite W1; ring). apply mean_close; [exact Ln|exact Wp|]. intro q. apply C.
  - destruct (F m j Hj) as [-> ->]. apply C.
Qed.
(** without exposures: equal at mid-transit, both zero out of transit *)
Lemma same_equal : texp = None -> exists X Y f g, lcK = Ok X /\ lcS = Ok Y /\ light_table n N X f /\ light_table n N Y g /\
  forall m j, (m < N)%nat -> (j < n)%nat ->
    ((exists z, ts m = smid (ys j) z) -> f m j = g m j) /\
    ((forall z, sa_duration (ys j) / 2 <= Rabs (ts m - smid (ys j) z)) -> f m j = 0 /\ g m j = 0).
Proof.
  intro En. destruct both_curves as (X & Y & f & g & EX & EY & TX & TY & F). exists X, Y, f, g. split; [exact EX|]. split; [exact EY|]. split; [exact TX|]. split; [exact TY|]. intros m j Hm Hj.
  rewrite En in F. destruct (F m j Hj) as [-> ->]. split.
  - intros (z & ->). apply (same_flux_mid k (xs j)); auto.
  - intro H. apply (same_out k (xs j)); auto. apply Rnot_lt_le. intro Z. apply (sz_iff k (xs j) (os j) (ys j)) in Z; auto. destruct Z as (z & Z). assert (Q := H z). lra.
Qed.
End L.
