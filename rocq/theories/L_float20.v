(** * Rounding errors of light curves: one planet of a SimpleTransitOrbit *)
From Coq Require Import Reals Lra Lia Psatz Bool List Arith ZArith.
From Coquelicot Require Import Coquelicot.
From Verif Require Import Num CoreOps Inst CoreFlux M_units M_kepler M_fin M_tensor M_simple M_limbdark Spec_orbit Spec_params Spec_array Spec_simple Spec_light Spec_undef Spec_dist Spec_lip Spec_float Spec_float2 Spec_float3 Spec_float5
  L_real L_simple L_simple2 L_light1 L_light7 L_lip2 L_lip3 L_dist3 L_float L_float8 L_float16 L_float17.
Import ListNotations.
Local Notation length := List.length.
Open Scope R_scope.

Lemma hypot_diff a b c d : Rabs (sqrt (a * a + b * b) - sqrt (c * c + d * d)) <= Rabs (a - c) + Rabs (b - d).
Proof.
  assert (K : forall a b c d, sqrt (a * a + b * b) <= sqrt (c * c + d * d) + (Rabs (a - c) + Rabs (b - d))).
  { clear. intros a b c d. set (p := sqrt (c * c + d * d)). assert (P0 : 0 <= p) by apply sqrt_pos. assert (PP : p * p = c * c + d * d) by (apply sqrt_sqrt; assert (A := Rle_0_sqr c); assert (B := Rle_0_sqr d); unfold Rsqr in *; lra).
    assert (H1 : Rabs c <= p). { rewrite <- (sqrt_square (Rabs c)) by apply Rabs_pos. apply sqrt_le_1_alt. rewrite <- Rabs_mult, Rabs_pos_eq by apply Rle_0_sqr. assert (B := Rle_0_sqr d). unfold Rsqr in B. lra. }
    assert (H2 : Rabs d <= p). { rewrite <- (sqrt_square (Rabs d)) by apply Rabs_pos. apply sqrt_le_1_alt. rewrite <- Rabs_mult, Rabs_pos_eq by apply Rle_0_sqr. assert (B := Rle_0_sqr c). unfold Rsqr in B. lra. }
    assert (X0 := Rabs_pos (a - c)). assert (Y0 := Rabs_pos (b - d)). rewrite <- (sqrt_square (p + _)) by lra. apply sqrt_le_1_alt.
    assert (EA : a * a = c * c + 2 * (c * (a - c)) + Rabs (a - c) * Rabs (a - c)). { rewrite <- Rabs_mult, (Rabs_pos_eq ((a - c) * (a - c))) by apply Rle_0_sqr. ring. }
    assert (EB : b * b = d * d + 2 * (d * (b - d)) + Rabs (b - d) * Rabs (b - d)). { rewrite <- Rabs_mult, (Rabs_pos_eq ((b - d) * (b - d))) by apply Rle_0_sqr. ring. }
    assert (C1 : c * (a - c) <= p * Rabs (a - c)). { eapply Rle_trans; [apply Rle_abs|]. rewrite Rabs_mult. apply Rmult_le_compat_r; assumption. }
    assert (C2 : d * (b - d) <= p * Rabs (b - d)). { eapply Rle_trans; [apply Rle_abs|]. rewrite Rabs_mult. apply Rmult_le_compat_r; assumption. }
    assert (M := Rmult_le_pos _ _ X0 Y0). rewrite EA, EB. set (X := Rabs (a - c)) in *. set (Y := Rabs (b - d)) in *. nra. }
  assert (A := K a b c d). assert (B := K c d a b). rewrite (Rabs_minus_sym c a), (Rabs_minus_sym d b) in B. apply Rabs_le. lra.
Qed.

Section X.
Variable u : R.
Variable rd : rounder.
Hypothesis Acc : accurate u rd.
Variables u1 u2 : R.
Hypothesis Hlaw : 0 <= u1 /\ u1 + u2 <= 1 /\ 0 <= u1 + 2 * u2.
Variable x : sargs R.
Hypothesis ok : simple_ok x.
Local Notation b := (dflt 0 (sa_b x)).
Local Notation rs := (dflt 1 (sa_r_star x)).
Local Notation ror := (dflt 0 (sa_ror x)).
Local Notation D := (sa_duration x).
Local Notation P := (sa_period x).
Local Notation V := (chord_speed x).
Local Notation g := (grazing (1 + ror) b).
Hypothesis Hror : 0 <= ror.
Hypothesis Hb : Rabs b < 1 + ror.
Hypothesis Hg : u * g <= 1 / 200.
Variable r : R.
Hypothesis Hr : 0 <= r <= ror * rs.
Let U := proj1 Acc.

Lemma law_disk : disk_flux u1 u2 <> 0.
Proof. rewrite (disk_is u1 u2). assert (D' := dd_range u1 u2 ltac:(tauto) ltac:(tauto) ltac:(tauto)). assert (HP := PI_RGT_0). apply Rmult_integral_contrapositive_currified; lra. Qed.

Lemma lip32 d d' z z' : 0 <= d -> 0 <= d' -> 0 < z -> 0 < z' -> Rabs (rel_flux u1 u2 (d / rs) (r / rs) z - rel_flux u1 u2 (d' / rs) (r / rs) z') <= 32 * (r / rs * (Rabs (d - d') / rs)).
Proof.
  intros Hd Hd' Hz Hz'. assert (HR := so_r_star _ ok). eapply Rle_trans; [apply (rel_lip u1 u2 _ _ _ z z' law_disk Hz Hz')|].
  assert (W := weight_8 u1 u2 ltac:(tauto) ltac:(tauto) ltac:(tauto)). assert (R0 : 0 <= r / rs) by (apply Rdiv_le_0_compat; lra).
  rewrite (Rabs_pos_eq (r / rs)), (Rabs_pos_eq (d / rs)), (Rabs_pos_eq (d' / rs)) by (try assumption; apply Rdiv_le_0_compat; lra).
  replace (d / rs - d' / rs) with ((d - d') * / rs) by (field; lra). rewrite Rabs_mult, (Rabs_pos_eq (/ rs)) by (left; apply Rinv_0_lt_compat; exact HR).
  change (Rabs (d - d') * / rs) with (Rabs (d - d') / rs). assert (Q : 0 <= Rabs (d - d') / rs) by (apply Rdiv_le_0_compat; [apply Rabs_pos|exact HR]).
  set (q := Rabs (d - d') / rs) in *. clearbody q. set (p := r / rs) in *. clearbody p. assert (M := Rmult_le_pos _ _ R0 Q). nra.
Qed.

(** near a contact the flux is small *)
Lemma edge T eta t : 0 <= T -> 0 <= eta -> rs + r <= reach x T -> T - eta <= Rabs (sdt x t) -> Rabs (flux_at u1 u2 (spos x t) r rs) <= 32 * (r / rs * (V * eta / rs)).
Proof.
  intros HT He HC Hs. assert (HR := so_r_star _ ok). rewrite (simple_front x ok u1 u2 r t law_disk Hr). set (s := Rabs (sdt x t)) in *. assert (S0 : 0 <= s) by apply Rabs_pos.
  assert (V0 := sspeed_pos x ok). rewrite <- (sspeed_chord x ok).
  assert (Z : rel_flux u1 u2 (reach x T / rs) (r / rs) 1 = 0).
  { apply rel_flux_out; [exact law_disk|]. left. rewrite !Rabs_pos_eq by (apply Rdiv_le_0_compat; [first [lra|apply sqrt_pos]|lra]). apply (Rmult_le_reg_r rs); [exact HR|].
    replace ((1 + r / rs) * rs) with (rs + r) by (field; lra). replace (reach x T / rs * rs) with (reach x T) by (field; lra). exact HC. }
  assert (R0 : 0 <= r / rs) by (apply Rdiv_le_0_compat; lra).
  destruct (Rle_dec T s) as [h|h].
  - assert (Z' : rel_flux u1 u2 (reach x s / rs) (r / rs) 1 = 0).
    { apply rel_flux_out; [exact law_disk|]. left. rewrite !Rabs_pos_eq by (apply Rdiv_le_0_compat; [first [lra|apply sqrt_pos]|lra]). apply (Rmult_le_reg_r rs); [exact HR|].
      replace ((1 + r / rs) * rs) with (rs + r) by (field; lra). replace (reach x s / rs * rs) with (reach x s) by (field; lra).
      apply Rle_trans with (1 := HC). unfold reach. apply sqrt_le_1_alt. apply Rplus_le_compat_r. assert (sspeed x * T <= sspeed x * s) by (apply Rmult_le_compat_l; lra). assert (0 <= sspeed x * T) by (apply Rmult_le_pos; lra). nra. }
    rewrite Z', Rabs_R0. assert (0 <= sspeed x * eta / rs) by (apply Rdiv_le_0_compat; [apply Rmult_le_pos; lra|lra]). assert (M := Rmult_le_pos _ _ R0 H). lra.
  - rewrite <- (Rminus_0_r (rel_flux _ _ _ _ _)), <- Z. eapply Rle_trans; [apply lip32; [apply sqrt_pos|apply sqrt_pos|lra|lra]|].
    apply Rmult_le_compat_l; [lra|]. apply Rmult_le_compat_l; [exact R0|]. apply Rmult_le_compat_r; [left; apply Rinv_0_lt_compat; exact HR|].
    eapply Rle_trans; [apply (reach_lip x ok s T S0 HT)|]. apply Rmult_le_compat_l; [lra|]. rewrite Rabs_left1 by lra. lra.
Qed.

Lemma time_error_moves s t : time_error u x s <= time_error u x t + u * Rabs (s - t).
Proof.
  unfold time_error. assert (U' := U). assert (A := Rabs_triang (s - t) (t - dflt 0 (sa_t0 x))). replace (s - t + (t - dflt 0 (sa_t0 x))) with (s - dflt 0 (sa_t0 x)) in A by ring.
  assert (u * Rabs (s - dflt 0 (sa_t0 x)) <= u * (Rabs (s - t) + Rabs (t - dflt 0 (sa_t0 x)))) by (apply Rmult_le_compat_l; lra). lra.
Qed.
Lemma time_error_pos t : 0 <= time_error u x t.
Proof. unfold time_error. assert (U' := U). assert (HP := so_period _ ok). assert (A := Rabs_pos (t - dflt 0 (sa_t0 x))). assert (B := Rabs_pos (dflt 0 (sa_t0 x))). apply Rmult_le_pos; lra. Qed.
Lemma grazing_pos : 0 <= g.
Proof.
  unfold grazing. apply Rdiv_le_0_compat; [apply Rle_0_sqr|]. assert (A := Rabs_pos b). assert (E : b * b = Rabs b * Rabs b) by (rewrite <- Rabs_mult, Rabs_pos_eq by apply Rle_0_sqr; reflexivity). rewrite E. nra.
Qed.
Lemma contact_reach : rs + r <= reach x (D / 2).
Proof.
  assert (HR := so_r_star _ ok). assert (HD := so_duration _ ok). unfold reach. rewrite (sspeed_chord x ok). unfold chord_speed.
  assert (AG : 0 <= (1 + ror) * (1 + ror) - b * b). { assert (A := Rabs_pos b). assert (E : b * b = Rabs b * Rabs b) by (rewrite <- Rabs_mult, Rabs_pos_eq by apply Rle_0_sqr; reflexivity). rewrite E. nra. }
  set (c := sqrt ((1 + ror) * (1 + ror) - b * b)). assert (CC : c * c = (1 + ror) * (1 + ror) - b * b) by (apply sqrt_sqrt; exact AG).
  replace (2 * (rs * c) / D * (D / 2)) with (rs * c) by (field; lra). apply Rle_trans with (rs * (1 + ror)); [lra|]. rewrite <- (sqrt_square (rs * (1 + ror))) by nra. apply sqrt_le_1_alt.
  replace (rs * c * (rs * c)) with (rs * rs * (c * c)) by ring. rewrite CC. lra.
Qed.

Lemma simple_point s t d : Rabs (s - t) <= d ->
  Rabs (flux_at u1 u2 (computed_position rd x s) r rs - flux_at u1 u2 (spos x t) r rs) <= 32 * (r / rs * (place_error u x t d / rs)).
Proof.
  intros Hst. assert (U' := U). assert (HR := so_r_star _ ok). assert (HD := so_duration _ ok). assert (HP := so_period _ ok). assert (V0 := sspeed_pos x ok).
  assert (R0 : 0 <= r / rs) by (apply Rdiv_le_0_compat; lra). assert (D0 : 0 <= d) by (eapply Rle_trans; [apply Rabs_pos|exact Hst]).
  assert (T0 := time_error_pos s). assert (TM := time_error_moves s t). assert (G0 := grazing_pos).
  assert (TM' : time_error u x s <= time_error u x t + u * d) by (assert (u * Rabs (s - t) <= u * d) by (apply Rmult_le_compat_l; lra); lra).
  destruct (front_ok u rd Acc x ok s) as [Hz (m & Hm & [Dec _])]. destruct (pos_ok u rd Acc x ok Hror Hb Hg s) as (q & Hq & HX & HY).
  assert (EV : 2 * half_chord x / D = V) by reflexivity. rewrite EV in HX.
  destruct (computed_position rd x s) as [[X Y] Z]. cbn [fst snd] in *.
  assert (PE : forall A, A <= place_error u x t d -> 32 * (r / rs * (A / rs)) <= 32 * (r / rs * (place_error u x t d / rs))).
  { intros A HA. apply Rmult_le_compat_l; [lra|]. apply Rmult_le_compat_l; [exact R0|]. apply Rmult_le_compat_r; [left; apply Rinv_0_lt_compat; exact HR|exact HA]. }
  rewrite <- (sspeed_chord x ok) in HX. set (ub := u * Rabs (b * rs)). assert (UB : 0 <= ub) by (apply Rmult_le_pos; [lra|apply Rabs_pos]).
  assert (UG : 0 <= u * g * P) by (apply Rmult_le_pos; [apply Rmult_le_pos; [lra|exact G0]|lra]). assert (UD : 0 <= u * D) by (apply Rmult_le_pos; lra).
  assert (EP : place_error u x t d = sspeed x * (3 * time_error u x t + 8 * (u * g * P) + 2 * (u * D) + 4 * d) + 4 * ub) by (unfold place_error, ub; rewrite <- (sspeed_chord x ok); ring).
  assert (Sd : Rabs (Rabs (sdt x s) - Rabs (sdt x t)) <= d).
  { assert (A := sdt_lip x ok s t). assert (B := sdt_lip x ok t s). rewrite (Rabs_minus_sym t s) in B. apply Rabs_le. lra. }
  destruct (Rlt_dec 0 Z) as [hz|hz].
  - (* in front *)
    rewrite (simple_front x ok u1 u2 r t law_disk Hr). unfold flux_at. cbn [vx vy vz fst snd]. unfold vx, vy, vz. cbn [fst snd].
    eapply Rle_trans; [apply lip32; [apply sqrt_pos|apply sqrt_pos|apply Rdiv_lt_0_compat; assumption|lra]|]. apply PE. rewrite EP.
    assert (N1 : Rabs (Rabs (s - smid x q) - Rabs (sdt x s)) <= 2 * time_error u x s).
    { assert (A := L_lip3.sdt_near x ok s q). destruct (L_simple.sdt_near x s HP) as (q' & E' & _). assert (B := Hq q'). rewrite <- E' in B. apply Rabs_le. lra. }
    assert (X1 : Rabs (Rabs X - sspeed x * Rabs (sdt x t)) <= sspeed x * (3 * time_error u x s + 8 * u * g * P + d)).
    { assert (A1 : Rabs (Rabs X - sspeed x * Rabs (s - smid x q)) <= sspeed x * (time_error u x s + 8 * u * g * P)).
      { replace (sspeed x * Rabs (s - smid x q)) with (Rabs (sspeed x * (s - smid x q))) by (rewrite Rabs_mult, (Rabs_pos_eq (sspeed x)) by lra; reflexivity). eapply Rle_trans; [apply Rabs_triang_inv2|exact HX]. }
      replace (Rabs X - sspeed x * Rabs (sdt x t)) with ((Rabs X - sspeed x * Rabs (s - smid x q)) + sspeed x * ((Rabs (s - smid x q) - Rabs (sdt x s)) + (Rabs (sdt x s) - Rabs (sdt x t)))) by ring.
      eapply Rle_trans; [apply Rabs_triang|]. rewrite Rabs_mult, (Rabs_pos_eq (sspeed x)) by lra. assert (A2 := Rabs_triang (Rabs (s - smid x q) - Rabs (sdt x s)) (Rabs (sdt x s) - Rabs (sdt x t))).
      assert (sspeed x * Rabs (Rabs (s - smid x q) - Rabs (sdt x s) + (Rabs (sdt x s) - Rabs (sdt x t))) <= sspeed x * (2 * time_error u x s + d)) by (apply Rmult_le_compat_l; lra). lra. }
    assert (EX : sqrt (X * X + Y * Y) = sqrt (Rabs X * Rabs X + Y * Y)) by (rewrite <- Rabs_mult, (Rabs_pos_eq (X * X)) by apply Rle_0_sqr; reflexivity).
    rewrite EX. unfold reach. eapply Rle_trans; [apply hypot_diff|].
    assert (S1 : sspeed x * (3 * time_error u x s + 8 * u * g * P + d) <= sspeed x * (3 * time_error u x t + 8 * (u * g * P) + 2 * (u * D) + 4 * d)).
    { apply Rmult_le_compat_l; [lra|]. assert (u * d <= 1 / 100 * d) by (apply Rmult_le_compat_r; lra). lra. }
    unfold ub. lra.
  - (* behind *)
    assert (F0 : flux_at u1 u2 (X, Y, Z) r rs = 0).
    { unfold flux_at, rel_flux. unfold vz. cbn [snd]. destruct (Rlt_dec 0 (Z / rs)) as [k|k]; [|reflexivity]. exfalso. apply hz. apply (Rmult_lt_reg_r (/ rs)); [apply Rinv_0_lt_compat; exact HR|]. rewrite Rmult_0_l. exact k. }
    rewrite F0, Rminus_0_l, Rabs_Ropp.
    assert (Far : D / 2 - (time_error u x s + 2 * u * D) <= Rabs (sdt x s)).
    { apply Rnot_lt_le. intro h. apply sdt_lt in h; [|exact HP]. apply Dec in h. apply Hm in h. contradiction. }
    eapply Rle_trans; [apply (edge (D / 2) (time_error u x s + 2 * u * D + d)); [lra|lra|exact contact_reach|]|].
    { assert (A := Rabs_def2 _ _ (Rle_lt_trans _ _ (d + 1) Sd ltac:(lra))). assert (Rabs (sdt x s) - Rabs (sdt x t) <= d) by (eapply Rle_trans; [apply Rle_abs|exact Sd]). lra. }
    apply PE. rewrite EP, <- (sspeed_chord x ok). 
    assert (sspeed x * (time_error u x s + 2 * u * D + d) <= sspeed x * (3 * time_error u x t + 8 * (u * g * P) + 2 * (u * D) + 4 * d)).
    { apply Rmult_le_compat_l; [lra|]. assert (u * d <= 1 / 100 * d) by (apply Rmult_le_compat_r; lra). assert (TT := time_error_pos t). lra. }
    lra.
Qed.
End X.
