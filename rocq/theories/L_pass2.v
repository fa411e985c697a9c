(** * Transits of KeplerianOrbit and SimpleTransitOrbit *)
From Coq Require Import Reals Lra Lia Psatz List Bool Arith ZArith.
From Coquelicot Require Import Coquelicot.
From Verif Require Import Num CoreOps Inst CoreFlux M_units M_kepler M_fin M_tensor M_limbdark M_simple Spec_orbit Spec_params Spec_array Spec_simple Spec_light Spec_depth Spec_curve Spec_curve2
  L_real L_orbit L_flux L_simple L_light1 L_area L_depth L_depth2 L_depth3 L_depth4 L_curve L_curve2 L_curve3 L_lens L_pass.
Open Scope R_scope.

Lemma sq_abs b : b * b = Rabs b * Rabs b.
Proof. assert (S := Rsqr_abs b). exact S. Qed.
Section K.
Variables (k : consts) (x : kargs R) (o : orbit R) (r : R).
Hypothesis kok : consts_ok k.
Hypothesis Ho : kep_init k x = Ok o.
Hypothesis ph : physical o.
Hypothesis tr : transiting o r.
Let Rs := o_r_star o.
Let P := o_period o.
Let A := o_a o * o_a o - o_b o * o_b o * (o_r_star o * o_r_star o).
Let B := o_b o * o_b o * (o_r_star o * o_r_star o).
Definition kep_away (o : orbit R) (d : R) : R :=
  sqrt ((o_a o * o_a o - o_b o * o_b o * (o_r_star o * o_r_star o)) * (sin (2 * PI * d / o_period o) * sin (2 * PI * d / o_period o)) + o_b o * o_b o * (o_r_star o * o_r_star o)).
Lemma kep_apart (z : Z) d : apart (pos k o Relative (o_t0 o + IZR z * o_period o + d) None false) = kep_away o (Rabs d).
Proof.
  destruct (where_it_is k x o r kok Ho ph tr z d) as [W _]. unfold apart, kep_away. rewrite W. f_equal. f_equal. f_equal. assert (HP := ph_period _ ph).
  unfold Rabs. destruct (Rcase_abs d); [|reflexivity]. replace (2 * PI * - d / o_period o) with (- (2 * PI * d / o_period o)) by (field; lra). rewrite sin_neg. ring.
Qed.
Lemma kep_away0 : kep_away o 0 = Rabs (o_b o) * o_r_star o.
Proof.
  unfold kep_away. replace (2 * PI * 0 / o_period o) with 0 by (field; assert (HP := ph_period _ ph); lra). rewrite sin_0. assert (Hs := ph_r_star _ ph). rewrite (sq_abs (o_b o)).
  match goal with |- sqrt ?u = _ => replace u with ((Rabs (o_b o) * o_r_star o) * (Rabs (o_b o) * o_r_star o)) by ring end. apply sqrt_square. apply Rmult_le_pos; [apply Rabs_pos|lra].
Qed.
Lemma kep_passes : passes (fun t => pos k o Relative t None false) (o_r_star o) r (o_t0 o) (o_period o) (half_time o (o_r_star o + r)) (kep_away o) /\ reaches (o_r_star o) r (half_time o (o_r_star o + r)) (kep_away o).
Proof.
  destruct (sizes o r ph tr) as (S1 & S2 & S3 & S4). assert (Hr := tr_radius _ _ tr). assert (HP := ph_period _ ph). assert (Hpi := PI_RGT_0).
  destruct (half_range o r ph tr (o_r_star o + r) ltac:(lra) ltac:(lra)) as [W Wp]. specialize (Wp ltac:(lra)).
  assert (NI := near_iff k x o r kok Ho ph tr). cbv zeta in NI.
  assert (N : forall c d, 0 <= c <= o_r_star o + r -> B <= c * c -> Rabs d <= o_period o / 2 -> (Rabs d < half_time o c <-> 0 < vz (pos k o Relative (o_t0 o + IZR 0 * o_period o + d) None false) /\ kep_away o (Rabs d) < c) /\ (Rabs d <= half_time o c <-> 0 < vz (pos k o Relative (o_t0 o + IZR 0 * o_period o + d) None false) /\ kep_away o (Rabs d) <= c)).
  { intros c d Hc Hb Hd. assert (Q := NI c 0%Z d Hc Hb Hd). rewrite (kep_apart 0 d) in Q. exact Q. }
  assert (Z0 : 0 <= Rabs (o_b o) * o_r_star o) by (apply Rmult_le_pos; [apply Rabs_pos|lra]). assert (Cr := tr_crosses _ _ tr). assert (EB : B = Rabs (o_b o) * o_r_star o * (Rabs (o_b o) * o_r_star o)) by (unfold B; rewrite (sq_abs (o_b o)); ring).
  split; [constructor|].
  - exact S4.
  - exact Hr.
  - lra.
  - intros z d Hd. split; [|apply kep_apart]. apply (proj1 (NI (o_r_star o + r) z d ltac:(lra) ltac:(lra) ltac:(lra))), Hd.
  - intros z d Hd. destruct (Rlt_dec 0 (vz (pos k o Relative (o_t0 o + IZR z * o_period o + d) None false))) as [h|h]; [right|left; lra]. apply Rnot_lt_le. intro h'. assert (Q := proj2 (proj1 (NI (o_r_star o + r) z d ltac:(lra) ltac:(lra) ltac:(lra))) (conj h h')). lra.
  - intros d d' h1 h2 h3. assert (K : 0 < 2 * PI / o_period o) by (apply Rdiv_lt_0_compat; lra).
    assert (T : forall e, 0 <= e < o_period o / 4 -> 0 <= 2 * PI * e / o_period o < PI / 2). { intros e He. replace (2 * PI * e / o_period o) with (2 * PI / o_period o * e) by (field; lra). split; [apply Rmult_le_pos; lra|]. replace (PI / 2) with (2 * PI / o_period o * (o_period o / 4)) by (field; lra). apply Rmult_lt_compat_l; lra. }
    assert (T1 := T d ltac:(lra)). assert (T2 := T d' ltac:(lra)). assert (L : 2 * PI * d / o_period o < 2 * PI * d' / o_period o). { unfold Rdiv. apply Rmult_lt_compat_r; [apply Rinv_0_lt_compat; lra|]. apply Rmult_lt_compat_l; lra. }
    assert (Si := sin_increasing_1 (2 * PI * d / o_period o) (2 * PI * d' / o_period o) ltac:(lra) ltac:(lra) ltac:(lra) ltac:(lra) L). assert (S0 := sin_ge_0 (2 * PI * d / o_period o) ltac:(lra) ltac:(lra)).
    unfold kep_away. fold A B. set (u := sin (2 * PI * d / o_period o)) in *. set (u' := sin (2 * PI * d' / o_period o)) in *. apply sqrt_lt_1_alt. fold A B in S1, S2. assert (0 <= u * u) by nra. assert (u * u < u' * u') by nra. assert (0 <= A * (u * u)) by (apply Rmult_le_pos; lra). assert (A * (u * u) < A * (u' * u')) by (apply Rmult_lt_compat_l; lra). split; lra.
  - intros d Hd. split; [apply sqrt_pos|]. assert (Q := proj1 (proj1 (N (o_r_star o + r) d ltac:(lra) ltac:(fold B in S3; lra) ltac:(rewrite Rabs_pos_eq; lra)))). rewrite Rabs_pos_eq in Q by lra. apply Q. lra.
  - intros c Hc. rewrite kep_away0 in Hc. set (c1 := (Rabs (o_b o) * o_r_star o + Rmin c (o_r_star o + r)) / 2). assert (M : Rabs (o_b o) * o_r_star o < Rmin c (o_r_star o + r)) by (apply Rmin_glb_lt; assumption). assert (M1 := Rmin_l c (o_r_star o + r)). assert (M2 := Rmin_r c (o_r_star o + r)).
    assert (C1 : Rabs (o_b o) * o_r_star o < c1 < Rmin c (o_r_star o + r)) by (unfold c1; lra). assert (Bc : B < c1 * c1) by (rewrite EB; nra). destruct (half_range o r ph tr c1 ltac:(lra) ltac:(fold B; lra)) as [V Vp]. specialize (Vp ltac:(fold B; lra)).
    exists (half_time o c1). destruct (N c1 (half_time o c1) ltac:(lra) ltac:(lra) ltac:(rewrite Rabs_pos_eq; lra)) as [_ [Q _]]. rewrite Rabs_pos_eq in Q by lra. destruct (Q ltac:(lra)) as [Q1 Q2]. split; [|lra]. split; [exact Vp|].
    destruct (N (o_r_star o + r) (half_time o c1) ltac:(lra) ltac:(fold B in S3; lra) ltac:(rewrite Rabs_pos_eq; lra)) as [[_ Y] _]. rewrite Rabs_pos_eq in Y by lra. apply Y. split; [exact Q1|lra].
  - set (c0 := Rmax (Rabs (o_r_star o - r)) (Rabs (o_b o) * o_r_star o)). assert (M1 := Rmax_l (Rabs (o_r_star o - r)) (Rabs (o_b o) * o_r_star o)). assert (M2 := Rmax_r (Rabs (o_r_star o - r)) (Rabs (o_b o) * o_r_star o)).
    assert (C0 : c0 < o_r_star o + r) by (apply Rmax_lub_lt; [apply Rabs_def1; lra|exact Cr]). fold c0 in M1, M2. assert (Bc : B <= c0 * c0) by (rewrite EB; apply Rmult_le_compat; lra).
    destruct (half_range o r ph tr c0 ltac:(lra) ltac:(fold B; lra)) as [V _]. exists (half_time o c0). split.
    + split; [lra|]. destruct (N c0 (half_time o c0) ltac:(lra) ltac:(lra) ltac:(rewrite Rabs_pos_eq; lra)) as [_ [Q _]]. rewrite Rabs_pos_eq in Q by lra. destruct (Q ltac:(lra)) as [Q1 Q2].
      destruct (N (o_r_star o + r) (half_time o c0) ltac:(lra) ltac:(fold B in S3; lra) ltac:(rewrite Rabs_pos_eq; lra)) as [[_ Y] _]. rewrite Rabs_pos_eq in Y by lra. apply Y. split; [exact Q1|lra].
    + intros d [h1 h2]. assert (h0 : Rabs d = d) by (apply Rabs_pos_eq; lra). destruct (N c0 d ltac:(lra) ltac:(lra) ltac:(lra)) as [_ [_ Q]]. destruct (N (o_r_star o + r) d ltac:(lra) ltac:(fold B in S3; lra) ltac:(lra)) as [[Y _] _]. rewrite h0 in Q, Y. destruct (Y h2) as [Y1 _].
      apply Rle_lt_trans with c0; [exact M1|]. apply Rnot_le_lt. intro h. specialize (Q (conj Y1 h)). lra.
Qed.
End K.
Section S.
Variables (x : sargs R) (r : R).
Hypothesis cr : crossing x r.
Let P := sa_period x.
Let D := sa_duration x.
Let t0 := dflt 0 (sa_t0 x).
Let b := dflt 0 (sa_b x).
Let Rs := dflt 1 (sa_r_star x).
Let ror := dflt 0 (sa_ror x).
Let v := sspeed x.
Definition simple_away (x : sargs R) (d : R) : R := sqrt (sspeed x * d * (sspeed x * d) + dflt 0 (sa_b x) * dflt 1 (sa_r_star x) * (dflt 0 (sa_b x) * dflt 1 (sa_r_star x))).
Lemma simple_v : 0 < v /\ v * v * (D * D) = 4 * (Rs * Rs * ((1 + ror) * (1 + ror) - b * b)) /\ 0 < (1 + ror) * (1 + ror) - b * b.
Proof.
  assert (ok := cr_ok _ _ cr). assert (HD := so_duration _ ok). assert (HR := so_r_star _ ok). assert (G := cr_speed _ _ cr). assert (Q := sspeed_sq x ok). fold D Rs ror b in Q, HD, HR, G. fold v in Q.
  assert (G0 : 0 < (1 + ror) * (1 + ror) - b * b) by (rewrite (sq_abs b); assert (Z := Rabs_pos b); nra). split; [|split; [exact Q|exact G0]].
  assert (V0 := sspeed_pos x ok). fold v in V0. destruct (Rle_lt_or_eq_dec 0 v V0) as [h|h]; [exact h|]. rewrite <- h in Q. assert (0 < Rs * Rs * ((1 + ror) * (1 + ror) - b * b)) by (repeat apply Rmult_lt_0_compat; assumption). lra.
Qed.
Definition reach (c : R) : R := sqrt (c * c - dflt 0 (sa_b x) * dflt 1 (sa_r_star x) * (dflt 0 (sa_b x) * dflt 1 (sa_r_star x))) / sspeed x.
Lemma reach_iff c d : 0 <= c -> Rabs b * Rs <= c -> 0 <= d -> (simple_away x d < c <-> d < reach c) /\ (simple_away x d <= c <-> d <= reach c).
Proof.
  intros Hc Hb Hd. destruct simple_v as (V & _ & _). assert (HR := so_r_star _ (cr_ok _ _ cr)). fold Rs in HR. unfold simple_away, reach. fold v b Rs.
  assert (E : b * Rs * (b * Rs) = Rabs b * Rs * (Rabs b * Rs)) by (transitivity (b * b * (Rs * Rs)); [ring|]; rewrite (sq_abs b); ring). assert (Z := Rabs_pos b). assert (0 <= Rabs b * Rs) by (apply Rmult_le_pos; lra).
  assert (C : 0 <= c * c - b * Rs * (b * Rs)) by (rewrite E; nra). assert (N0 : 0 <= v * d * (v * d) + b * Rs * (b * Rs)) by (assert (Z1 := Rle_0_sqr (v * d)); assert (Z2 := Rle_0_sqr (b * Rs)); unfold Rsqr in Z1, Z2; lra).
  set (g := c * c - b * Rs * (b * Rs)) in *. assert (G := sqrt_sqrt g C). assert (G0 := sqrt_pos g). assert (Vd : 0 <= v * d) by (apply Rmult_le_pos; lra).
  assert (X1 : forall e, d < e / v <-> v * d < e). { intro e. split; intro h; [apply (Rmult_lt_compat_l v) in h; [|exact V]; replace (v * (e / v)) with e in h by (field; lra); exact h|]. apply (Rmult_lt_reg_l v); [exact V|]. replace (v * (e / v)) with e by (field; lra). exact h. }
  assert (X2 : forall e, d <= e / v <-> v * d <= e). { intro e. split; intro h; [apply (Rmult_le_compat_l v) in h; [|lra]; replace (v * (e / v)) with e in h by (field; lra); exact h|]. apply (Rmult_le_reg_l v); [exact V|]. replace (v * (e / v)) with e by (field; lra). exact h. }
  rewrite X1, X2. rewrite <- (sqrt_square c Hc). split; split; intro h.
  - apply sqrt_lt_0_alt in h. apply Rnot_le_lt. intro h'. unfold g in *. nra.
  - apply sqrt_lt_1_alt. split; [exact N0|]. unfold g in *. nra.
  - apply sqrt_le_0 in h; [|exact N0|nra]. apply Rnot_lt_le. intro h'. unfold g in *. nra.
  - apply sqrt_le_1_alt. unfold g in *. nra.
Qed.
Lemma reach_part c : Rabs b * Rs <= c -> reach c = D / 2 * sqrt ((c / Rs * (c / Rs) - b * b) / ((1 + ror) * (1 + ror) - b * b)).
Proof.
  intro Hb. assert (ok := cr_ok _ _ cr). assert (HD := so_duration _ ok). assert (HR := so_r_star _ ok). fold Rs in HR. fold D in HD. destruct simple_v as (V & Q & G0). unfold reach. fold b Rs v. assert (Z := Rabs_pos b). assert (0 <= Rabs b * Rs) by (apply Rmult_le_pos; lra).
  assert (E : b * Rs * (b * Rs) = Rabs b * Rs * (Rabs b * Rs)) by (transitivity (b * b * (Rs * Rs)); [ring|]; rewrite (sq_abs b); ring). assert (C : 0 <= c * c - b * Rs * (b * Rs)) by (rewrite E; nra).
  set (G := (1 + ror) * (1 + ror) - b * b) in *. assert (Sv : v = 2 * (Rs * sqrt G) / D). { unfold v, sspeed. fold Rs ror b D G. rewrite sqrt_mult, sqrt_square by nra. reflexivity. }
  assert (SG := sqrt_lt_R0 G G0). replace ((c / Rs * (c / Rs) - b * b) / G) with ((c * c - b * Rs * (b * Rs)) / (Rs * Rs * G)) by (field; lra). assert (R2 : 0 < Rs * Rs) by (apply Rmult_lt_0_compat; exact HR). rewrite sqrt_div_alt by (apply Rmult_lt_0_compat; assumption). rewrite (sqrt_mult (Rs * Rs) G), sqrt_square by lra. rewrite Sv. field. repeat split; lra.
Qed.
Lemma simple_away0 : simple_away x 0 = Rabs b * Rs.
Proof.
  unfold simple_away. fold b Rs. assert (HR := so_r_star _ (cr_ok _ _ cr)). fold Rs in HR. replace (sspeed x * 0 * (sspeed x * 0) + b * Rs * (b * Rs)) with (Rabs b * Rs * (Rabs b * Rs)); [apply sqrt_square; apply Rmult_le_pos; [apply Rabs_pos|lra]|]. transitivity (b * b * (Rs * Rs)); [rewrite (sq_abs b)|]; ring.
Qed.
Lemma simple_apart (z : Z) d : Rabs d <= P / 2 -> apart (spos x (t0 + IZR z * P + d)) = simple_away x (Rabs d) /\ (0 < vz (spos x (t0 + IZR z * P + d)) <-> Rabs d < D / 2).
Proof.
  intro Hd. assert (HP := so_period _ (cr_ok _ _ cr)). assert (N := simple_near x (t0 + IZR z * P + d) z HP). change (smid x z) with (t0 + IZR z * P) in N. replace (t0 + IZR z * P + d - (t0 + IZR z * P)) with d in N by ring. specialize (N Hd).
  rewrite spos_eq. unfold apart, vx, vy, vz. cbn [fst snd]. split.
  - unfold simple_away. f_equal. rewrite <- N. fold b Rs. set (u := sdt x (t0 + IZR z * P + d)). transitivity (sspeed x * sspeed x * (u * u) + b * Rs * (b * Rs)); [ring|]. rewrite (sq_abs u). ring.
  - rewrite N. fold D. unfold Rltb. destruct (Rlt_dec (Rabs d) (0.5 * D)); split; intro; lra.
Qed.
Let w := Rmin (D / 2) (reach (Rs + r)).
Lemma simple_passes : passes (spos x) Rs r t0 P w (simple_away x).
Proof.
  assert (ok := cr_ok _ _ cr). assert (HP := so_period _ ok). assert (HD := so_duration _ ok). assert (HR := so_r_star _ ok). assert (Hr := cr_radius _ _ cr). assert (Sh := cr_short _ _ cr). assert (Cr := cr_crosses _ _ cr). fold P in HP. fold D in HD. fold Rs in HR. fold P D in Sh. fold b Rs in Cr. destruct simple_v as (V & Q & G0).
  assert (Z := Rabs_pos b). assert (Z0 : 0 <= Rabs b * Rs) by (apply Rmult_le_pos; lra). assert (M1 := Rmin_l (D / 2) (reach (Rs + r))). assert (M2 := Rmin_r (D / 2) (reach (Rs + r))). fold w in M1, M2.
  assert (R0 : 0 < reach (Rs + r)) by (apply (proj1 (proj1 (reach_iff (Rs + r) 0 ltac:(lra) ltac:(lra) ltac:(lra)))); rewrite simple_away0; exact Cr). assert (W0 : 0 < w) by (apply Rmin_glb_lt; lra).
  constructor; try assumption.
  - lra.
  - intros z d Hd. destruct (simple_apart z d ltac:(lra)) as [A1 A2]. split; [apply A2; lra|exact A1].
  - intros z d Hd. destruct (simple_apart z d ltac:(lra)) as [A1 A2]. destruct (Rlt_dec (Rabs d) (D / 2)) as [h|h]; [right|left; apply Rnot_lt_le; intro h'; apply A2 in h'; lra].
    rewrite A1. apply Rnot_lt_le. intro h'. apply (proj1 (reach_iff (Rs + r) (Rabs d) ltac:(lra) ltac:(lra) (Rabs_pos d))) in h'. unfold w in Hd. assert (K := Rmin_glb_lt (D / 2) (reach (Rs + r)) (Rabs d) h h'). lra.
  - intros d d' h1 h2 h3. unfold simple_away. fold v. apply sqrt_lt_1_alt. fold b Rs. assert (Z2 := Rle_0_sqr (b * Rs)). unfold Rsqr in Z2. assert (0 <= v * d) by (apply Rmult_le_pos; lra). assert (v * d < v * d') by (apply Rmult_lt_compat_l; lra). split; nra.
  - intros d Hd. split; [apply sqrt_pos|]. apply (proj1 (reach_iff (Rs + r) d ltac:(lra) ltac:(lra) ltac:(lra))). lra.
  - intros c Hc. rewrite simple_away0 in Hc. assert (R1 : 0 < reach c) by (apply (proj1 (proj1 (reach_iff c 0 ltac:(lra) ltac:(lra) ltac:(lra)))); rewrite simple_away0; exact Hc).
    exists (Rmin w (reach c) / 2). assert (L1 := Rmin_l w (reach c)). assert (L2 := Rmin_r w (reach c)). assert (L3 : 0 < Rmin w (reach c)) by (apply Rmin_glb_lt; assumption). split; [lra|]. apply (proj2 (reach_iff c (Rmin w (reach c) / 2) ltac:(lra) ltac:(lra) ltac:(lra))). lra.
Qed.
Lemma simple_w : w = D / 2 * dimmed_part x r.
Proof.
  assert (ok := cr_ok _ _ cr). assert (HD := so_duration _ ok). assert (HR := so_r_star _ ok). fold D in HD. fold Rs in HR. assert (Cr := cr_crosses _ _ cr). fold b Rs in Cr. unfold w. rewrite reach_part by lra. unfold dimmed_part. fold b Rs ror. replace (D / 2) with (D / 2 * 1) at 1 by ring.
  replace ((Rs + r) / Rs) with (1 + r / Rs) by (field; lra). unfold Rmin. destruct (Rle_dec 1 _) as [h|h], (Rle_dec (D / 2 * 1) _) as [h'|h']; try reflexivity; exfalso.
  - apply h'. apply Rmult_le_compat_l; lra.
  - apply h. apply (Rmult_le_reg_l (D / 2)); lra.
Qed.
Lemma matched_part : matched x r -> dimmed_part x r = 1.
Proof.
  intro M. unfold matched in M. assert (HR := so_r_star _ (cr_ok _ _ cr)). fold Rs in HR. unfold dimmed_part. fold b Rs ror. fold Rs ror in M. replace (r / Rs) with ror by (rewrite M; field; lra). destruct simple_v as (_ & _ & G0). unfold Rdiv. rewrite Rinv_r by lra. rewrite sqrt_1. apply Rmin_left. lra.
Qed.
Lemma simple_reaches : matched x r -> reaches Rs r w (simple_away x).
Proof.
  intro M. assert (ok := cr_ok _ _ cr). assert (HD := so_duration _ ok). assert (HR := so_r_star _ ok). fold D in HD. fold Rs in HR. assert (Cr := cr_crosses _ _ cr). assert (Hr := cr_radius _ _ cr). fold b Rs in Cr. assert (Z := Rabs_pos b). assert (Z0 : 0 <= Rabs b * Rs) by (apply Rmult_le_pos; lra).
  assert (Wd : w = D / 2) by (rewrite simple_w, (matched_part M); ring). assert (Wr : reach (Rs + r) = D / 2). { rewrite reach_part by lra. destruct simple_v as (_ & _ & G0). unfold matched in M. fold Rs ror in M. replace ((Rs + r) / Rs) with (1 + ror) by (rewrite M; field; lra). unfold Rdiv at 2. rewrite Rinv_r by lra. rewrite sqrt_1. ring. }
  set (c0 := Rmax (Rabs (Rs - r)) (Rabs b * Rs)). assert (M1 := Rmax_l (Rabs (Rs - r)) (Rabs b * Rs)). assert (M2 := Rmax_r (Rabs (Rs - r)) (Rabs b * Rs)). fold c0 in M1, M2. assert (C0 : c0 < Rs + r) by (apply Rmax_lub_lt; [apply Rabs_def1; lra|exact Cr]).
  assert (R0 : 0 <= reach c0) by (apply (proj1 (proj2 (reach_iff c0 0 ltac:(lra) ltac:(lra) ltac:(lra)))); rewrite simple_away0; exact M2).
  exists (reach c0). split.
  - split; [exact R0|]. rewrite Wd, <- Wr. apply (proj1 (reach_iff (Rs + r) (reach c0) ltac:(lra) ltac:(lra) R0)). apply Rle_lt_trans with c0; [|exact C0]. apply (proj2 (reach_iff c0 (reach c0) ltac:(lra) ltac:(lra) R0)). lra.
  - intros d [h1 h2]. apply Rle_lt_trans with c0; [exact M1|]. apply Rnot_le_lt. intro h. apply (proj2 (reach_iff c0 d ltac:(lra) ltac:(lra) ltac:(lra))) in h. lra.
Qed.
End S.
