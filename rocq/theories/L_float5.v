(** * Proofs: the motion on eccentric orbits with rounding errors *)
From Coq Require Import Reals Lra Lia Psatz Bool List.
From Coquelicot Require Import Rcomplements.
From Verif Require Import Num CoreOps Inst M_units M_kepler Spec_orbit Spec_params Spec_float L_real L_kepop L_orbit L_float L_float2 L_float3 L_float4.
Open Scope R_scope.

(** how the true anomaly depends on the mean anomaly *)
Lemma kepler_bound M e : Rabs e < 1 -> Rabs (kepler_sinf M e) <= 1 /\ Rabs (kepler_cosf M e) <= 1.
Proof. 
  intro He. assert (K : kepler_sinf M e * kepler_sinf M e + kepler_cosf M e * kepler_cosf M e = 1).
  { apply kepler_unit; exact He. }
  split; apply Rabs_le; nra.
Qed.
Lemma kepler_sens M1 M2 e : 0 <= e < 1 -> let q := / (1 - e) in
  Rabs (kepler_sinf M1 e - kepler_sinf M2 e) <= 2 * q ^ 3 * Rabs (M1 - M2) /\ Rabs (kepler_cosf M1 e - kepler_cosf M2 e) <= 2 * q ^ 3 * Rabs (M1 - M2).
Proof.
  intros He q. assert (Ha : Rabs e < 1) by (rewrite Rabs_pos_eq; lra). assert (L := ecc_anom_lipschitz e M1 M2 Ha). rewrite (Rabs_pos_eq e) in L by lra.
  unfold kepler_sinf, kepler_cosf. set (E1 := ecc_anom M1 e) in *. set (E2 := ecc_anom M2 e) in *. set (D := Rabs (E1 - E2)) in *.
  assert (Pq : 1 <= q). { unfold q. rewrite <- Rinv_1 at 1. apply Rinv_le_contravar; lra. } assert (Q : q * (1 - e) = 1) by (unfold q; field; lra).
  assert (PD : 0 <= D) by apply Rabs_pos. assert (HD : D <= q * Rabs (M1 - M2)). { apply (Rmult_le_reg_l (1 - e)); [lra|]. replace ((1 - e) * (q * Rabs (M1 - M2))) with (q * (1 - e) * Rabs (M1 - M2)) by ring. rewrite Q. lra. }
  assert (B1 := COS_bound E1). assert (B2 := COS_bound E2). assert (R1 : 1 - e <= 1 - e * cos E1) by nra. assert (R2 : 1 - e <= 1 - e * cos E2) by nra.
  set (r1 := 1 - e * cos E1) in *. set (r2 := 1 - e * cos E2) in *. assert (P12 : 0 < r1 * r2) by nra.
  assert (I : 0 < / (r1 * r2) <= q * q). { split; [apply Rinv_0_lt_compat; exact P12|]. unfold q. rewrite <- Rinv_mult. apply Rinv_le_contravar; nra. }
  assert (S1 : Rabs (sin E1 - sin E2) <= D) by apply sin_lipschitz. assert (S2 : Rabs (cos E1 - cos E2) <= D) by apply cos_lip.
  assert (G : forall X, Rabs X <= 2 * D -> Rabs (X * / (r1 * r2)) <= 2 * q ^ 3 * Rabs (M1 - M2)).
  { intros X HX. rewrite Rabs_mult, (Rabs_pos_eq (/ (r1 * r2))) by lra. apply Rle_trans with (2 * D * (q * q)); [apply Rmult_le_compat; try lra; apply Rabs_pos|].
    replace (2 * q ^ 3 * Rabs (M1 - M2)) with (2 * (q * Rabs (M1 - M2)) * (q * q)) by ring. apply Rmult_le_compat_r; nra. }
  split.
  - replace (sqrt (1 - e * e) * sin E1 / r1 - sqrt (1 - e * e) * sin E2 / r2) with (sqrt (1 - e * e) * ((sin E1 - sin E2) + - (e * sin (E1 - E2))) * / (r1 * r2)).
    2:{ rewrite sin_minus. unfold r1, r2. field. unfold r1, r2 in R1, R2. lra. }
    apply G. rewrite Rabs_mult. assert (Sq : 0 <= sqrt (1 - e * e) <= 1). { split; [apply sqrt_pos|]. rewrite <- sqrt_1 at 2. apply sqrt_le_1_alt. nra. }
    rewrite (Rabs_pos_eq (sqrt _)) by lra. assert (T := Rabs_triang (sin E1 - sin E2) (- (e * sin (E1 - E2)))). rewrite Rabs_Ropp, Rabs_mult, (Rabs_pos_eq e) in T by lra. assert (S3 := sin_abs_le (E1 - E2)). fold D in S3.
    assert (P3 := Rabs_pos (sin (E1 - E2))). assert (P4 := Rabs_pos (sin E1 - sin E2 + - (e * sin (E1 - E2)))). assert (e * Rabs (sin (E1 - E2)) <= D) by nra. nra.
  - replace ((cos E1 - e) / r1 - (cos E2 - e) / r2) with ((1 - e * e) * (cos E1 - cos E2) * / (r1 * r2)).
    2:{ unfold r1, r2. field. unfold r1, r2 in R1, R2. lra. }
    apply G. rewrite Rabs_mult, (Rabs_pos_eq (1 - e * e)) by nra. assert (P3 := Rabs_pos (cos E1 - cos E2)). nra.
Qed.

Section V.
Variable u : R.
Variable rd : rounder.
Hypothesis Acc : accurate u rd.
Hypothesis Ze : exact_zero rd.
Let U := proj1 Acc.

Lemma slack_1 o : oriented u o -> 1 <= slack o.
Proof.
  intro Ho. unfold slack. rewrite <- Rinv_1 at 1. destruct (o_ecc o) as [d|] eqn:E; [destruct (Ho d E) as ((A & B) & _)|]; apply Rinv_le_contravar; lra.
Qed.
Lemma swing_pos o t : 0 <= o_n o -> 0 <= swing o t.
Proof. intro Hn. unfold swing. apply Rmult_le_pos; [exact Hn|]. assert (K1 := Rabs_pos (t - o_t0 o)). assert (K2 := Rabs_pos (o_tref o)). lra. Qed.
Definition doubt o t := 8 * u * (slack o ^ 3 * swing o t) + u.
Lemma anomaly_close o t : oriented u o -> 0 <= o_n o ->
  forall b, let f := @true_anomaly R bool (rounded rd) o (@kep_warp R bool (rounded rd) o) b t in let g := @true_anomaly R bool NumR o (@kep_warp R bool NumR o) b t in
  Rabs (fst f - fst g) <= doubt o t /\ Rabs (snd f - snd g) <= doubt o t /\ Rabs (fst f) <= 1 + u /\ Rabs (snd f) <= 1 + u /\ Rabs (fst g) <= 1 /\ Rabs (snd g) <= 1.
Proof.
  intros Ho Hn b f g. assert (U' := U). assert (Hs := slack_1 o Ho). assert (Hw := swing_pos o t Hn). destruct (o_ecc o) as [d|] eqn:E.
  - assert (M := mean_close u rd Acc (o_n o) t (o_t0 o) (o_tref o) Hn). cbv zeta in M. fold (swing o t) in M. destruct (Ho d E) as (He & _). assert (Ha : Rabs (e_ecc d) < 1) by (rewrite Rabs_pos_eq; lra).
    assert (Ef : f = let s := rd OSub (rd OSub t (o_t0 o) (t - o_t0 o)) (o_tref o) (rd OSub t (o_t0 o) (t - o_t0 o) - o_tref o) in
       let m := rd OMul s (o_n o) (s * o_n o) in (rd OKeplerSin m (e_ecc d) (kepler_sinf m (e_ecc d)), rd OKeplerCos m (e_ecc d) (kepler_cosf m (e_ecc d)))).
    { unfold f, true_anomaly, kep_warp. rewrite E. cbn [nadd nzl nkepler_sin nkepler_cos rounded]. rewrite Rplus_0_r, Ze. destruct b; reflexivity. }
    assert (Eg : g = (kepler_sinf ((t - o_t0 o - o_tref o) * o_n o) (e_ecc d), kepler_cosf ((t - o_t0 o - o_tref o) * o_n o) (e_ecc d))).
    { unfold g, true_anomaly, kep_warp. rewrite E. cbn [nadd nzl nkepler_sin nkepler_cos NumR]. rewrite Rplus_0_r. destruct b; reflexivity. }
    rewrite Ef, Eg. cbv zeta. cbn [fst snd]. match type of M with Rabs (?m - ?m') <= _ => set (m1 := m) in *; set (m2 := m') in * end.
    destruct (kepler_bound m1 (e_ecc d) Ha) as [S1 C1]. destruct (kepler_bound m2 (e_ecc d) Ha) as [S2 C2]. destruct (kepler_sens m1 m2 (e_ecc d) He) as [X Y]. cbv zeta in X, Y.
    assert (Sl : slack o = / (1 - e_ecc d)) by (unfold slack; rewrite E; reflexivity). rewrite <- Sl in X, Y.
    assert (P3 : 0 < slack o ^ 3) by (apply pow_lt; lra). assert (K : 2 * slack o ^ 3 * Rabs (m1 - m2) <= 8 * u * (slack o ^ 3 * swing o t)) by nra.
    destruct (rd_close u rd Acc OKeplerSin m1 (e_ecc d) (kepler_sinf m1 (e_ecc d)) (kepler_sinf m2 (e_ecc d)) (8 * u * (slack o ^ 3 * swing o t)) 1) as [A1 A2]; [lra|exact S1|].
    destruct (rd_close u rd Acc OKeplerCos m1 (e_ecc d) (kepler_cosf m1 (e_ecc d)) (kepler_cosf m2 (e_ecc d)) (8 * u * (slack o ^ 3 * swing o t)) 1) as [B1 B2]; [lra|exact C1|].
    rewrite Rmult_1_r in *. unfold doubt. auto 7.
  - destruct (trig_close u rd Acc o t E Hn b) as (T1 & T2 & T3 & T4). fold (swing o t) in T1, T2. fold f in T1, T2, T3, T4. fold g in T1, T2.
    assert (Sl : slack o = 1) by (unfold slack; rewrite E; field). unfold doubt. rewrite Sl. replace (1 ^ 3) with 1 by ring. rewrite Rmult_1_l.
    assert (Eg : g = (sin ((t - o_t0 o - o_tref o) * o_n o), cos ((t - o_t0 o - o_tref o) * o_n o))). { unfold g, true_anomaly, kep_warp. rewrite E. destruct b; reflexivity. }
    assert (S1 := SIN_bound ((t - o_t0 o - o_tref o) * o_n o)). assert (C1 := COS_bound ((t - o_t0 o - o_tref o) * o_n o)).
    repeat split; try assumption; try (eapply Rle_trans; [eassumption|nra]); rewrite Eg; cbn [fst snd]; apply Rabs_le; lra.
Qed.

(** the first stage of the rotation *)
Lemma mix_close c s x y x' y' E B : 0 <= E -> Rabs c <= 1 + u -> Rabs s <= 1 + u -> Rabs x' <= B -> Rabs y' <= B -> Rabs (x' - x) <= E -> Rabs (y' - y) <= E ->
  let p := rd OMul c x' (c * x') in let r := rd OMul s y' (s * y') in
  (Rabs (rd OSub p r (p - r) - (c * x - s * y)) <= 21 / 10 * E + 42 / 10 * (u * B) /\ Rabs (rd OSub p r (p - r)) <= 21 / 10 * B) /\
  (Rabs (rd OAdd p r (p + r) - (c * x + s * y)) <= 21 / 10 * E + 42 / 10 * (u * B) /\ Rabs (rd OAdd p r (p + r)) <= 21 / 10 * B).
Proof.
  intros HE Hc Hs Bx By Dx Dy p r. assert (U' := U). assert (HB : 0 <= B) by (eapply Rle_trans; [apply Rabs_pos|exact Bx]).
  assert (0 <= u * B) by nra. assert (u * B <= 1 / 100 * B) by (apply Rmult_le_compat_r; lra). assert (u * (u * B) <= 1 / 100 * (u * B)) by (apply Rmult_le_compat_r; lra).
  destruct (fixed_prod u rd Acc c x x' E B HE HB Hc Bx Dx) as [P1 P2]. destruct (fixed_prod u rd Acc s y y' E B HE HB Hs By Dy) as [R1 R2]. fold p in P1, P2. fold r in R1, R2.
  assert (T1 := Rabs_triang p (- r)). rewrite Rabs_Ropp in T1. assert (T2 := Rabs_triang p r).
  destruct (rd_close u rd Acc OSub p r (p - r) (c * x - s * y) (204 / 100 * E + 204 / 100 * (u * B)) (206 / 100 * B)) as [V1 V2].
  { replace (p - r - (c * x - s * y)) with (p - c * x + - (r - s * y)) by ring. eapply Rle_trans; [apply Rabs_triang|]. rewrite Rabs_Ropp. lra. }
  { unfold Rminus. lra. }
  destruct (rd_close u rd Acc OAdd p r (p + r) (c * x + s * y) (204 / 100 * E + 204 / 100 * (u * B)) (206 / 100 * B)) as [V3 V4].
  { replace (p + r - (c * x + s * y)) with (p - c * x + (r - s * y)) by ring. eapply Rle_trans; [apply Rabs_triang|]. lra. }
  { lra. }
  repeat split; [eapply Rle_trans; [exact V1|lra]|eapply Rle_trans; [exact V2|lra]|eapply Rle_trans; [exact V3|lra]|eapply Rle_trans; [exact V4|lra]].
Qed.
Definition flat (o : orbit R) : orbit R := {|
  o_a := o_a o; o_period := o_period o; o_rho_star := o_rho_star o; o_r_star := o_r_star o; o_m_star := o_m_star o; o_m_planet := o_m_planet o; o_m_total := o_m_total o;
  o_n := o_n o; o_a_star := o_a_star o; o_a_planet := o_a_planet o; o_K0 := o_K0 o; o_Omega := o_Omega o; o_ecc := None; o_M0 := o_M0 o; o_dcosidb := o_dcosidb o;
  o_b := o_b o; o_cos_incl := o_cos_incl o; o_incl := o_incl o; o_sin_incl := o_sin_incl o; o_t0 := o_t0 o; o_tper := o_tper o; o_tref := o_tref o; o_jac := o_jac o; o_duration := o_duration o |}.
Lemma spin_close o x y x' y' E B : turned u o -> oriented u o -> 0 <= E -> Rabs x' <= B -> Rabs y' <= B -> Rabs (x' - x) <= E -> Rabs (y' - y) <= E ->
  near3 (@rotate_vector R bool (rounded rd) o x' y') (@rotate_vector R bool NumR o x y) (5 * E + 22 * (u * B)).
Proof.
  intros Ht Ho HE Bx By Dx Dy. assert (U' := U). assert (HB : 0 <= B) by (eapply Rle_trans; [apply Rabs_pos|exact Bx]). assert (0 <= u * B) by nra.
  destruct (o_ecc o) as [d|] eqn:Ee.
  - destruct (Ho d Ee) as (_ & Hc & Hs). destruct (mix_close (e_cosw d) (e_sinw d) x y x' y' E B HE Hc Hs Bx By Dx Dy) as ((P1 & P2) & _).
    destruct (mix_close (e_sinw d) (e_cosw d) x y x' y' E B HE Hs Hc Bx By Dx Dy) as (_ & (Q1 & Q2)). cbv zeta in P1, P2, Q1, Q2.
    assert (HE2 : 0 <= 21 / 10 * E + 42 / 10 * (u * B)) by lra. assert (K := rotate_close u rd Acc (flat o) _ _ _ _ _ _ Ht eq_refl HE2 P2 Q2 P1 Q1).
    assert (F : forall N x y, @rotate_vector R bool N o x y = @rotate_vector R bool N (flat o) (nsub (nmul (e_cosw d) x) (nmul (e_sinw d) y)) (nadd (nmul (e_sinw d) x) (nmul (e_cosw d) y))).
    { intros N a b. unfold rotate_vector. rewrite Ee. reflexivity. }
    rewrite !F. cbn [nsub nmul nadd rounded NumR]. destruct K as (K1 & K2 & K3). repeat split; (eapply Rle_trans; [eassumption|lra]).
  - destruct (rotate_close u rd Acc o _ _ _ _ _ _ Ht Ee HE Bx By Dx Dy) as (K1 & K2 & K3). repeat split; (eapply Rle_trans; [eassumption|lra]).
Qed.

(** velocities *)
Lemma speed_close o t m : turned u o -> oriented u o -> 0 <= o_n o ->
  near3 (@get_velocity R bool (rounded rd) o (@kep_warp R bool (rounded rd) o) m t)
        (@get_velocity R bool NumR o (@kep_warp R bool NumR o) m t) (85 * u * Rabs (o_K0 o * m) * (1 + slack o ^ 3 * swing o t)).
Proof.
  intros Ht Ho Hn. assert (Hs := slack_1 o Ho). assert (Hw := swing_pos o t Hn). assert (P3 : 0 < slack o ^ 3) by (apply pow_lt; lra). assert (U' := U).
  assert (T := anomaly_close o t Ho Hn true). cbv zeta in T. unfold get_velocity.
  destruct (@true_anomaly R bool (rounded rd) o (@kep_warp R bool (rounded rd) o) true t) as [s' c']. destruct (@true_anomaly R bool NumR o (@kep_warp R bool NumR o) true t) as [s c].
  cbn [fst snd] in T. destruct T as (T1 & T2 & T3 & T4 & T5 & T6). unfold doubt in T1, T2. set (H := slack o ^ 3 * swing o t) in *. assert (Hh : 0 <= H) by (unfold H; nra).
  cbn [nmul nneg nadd rounded NumR]. set (K := o_K0 o * m). assert (PA := Rabs_pos K).
  assert (DK := proj2 Acc OMul (o_K0 o) m K). set (K' := rd OMul (o_K0 o) m K) in *. assert (BK : Rabs K' <= (1 + u) * Rabs K) by (eapply Rle_trans; [apply (abs_diff K)|]; lra).
  assert (0 <= u * Rabs K) by nra. assert (0 <= u * Rabs K * H) by (apply Rmult_le_pos; assumption). assert (u * (u * Rabs K) <= 1 / 100 * (u * Rabs K)) by (apply Rmult_le_compat_r; lra).
  assert (u * Rabs K <= 1 / 100 * Rabs K) by (apply Rmult_le_compat_r; lra). assert (u * (u * (u * Rabs K)) <= 1 / 100 * (1 / 100 * (u * Rabs K))) by nra.
  assert (G : forall L L' x x', Rabs L = Rabs K -> Rabs L' <= (1 + u) * Rabs K -> Rabs (L' - L) <= u * Rabs K -> Rabs (x' - x) <= 8 * u * H + 31 / 10 * u -> Rabs x' <= 205 / 100 ->
    Rabs (rd OMul L' x' (L' * x') - L * x) <= u * Rabs K * (8 * H + 73 / 10) /\ Rabs (rd OMul L' x' (L' * x')) <= 21 / 10 * Rabs K).
  { intros L L' x x' L1 L2 L3 D1 D2. destruct (rd_close u rd Acc OMul L' x' (L' * x') (L * x) (Rabs K * (8 * u * H + 31 / 10 * u) + u * Rabs K * (205 / 100)) ((1 + u) * Rabs K * (205 / 100))) as [E1 E2].
    - apply prod_close; try assumption. lra.
    - rewrite Rabs_mult. apply Rmult_le_compat; try assumption; apply Rabs_pos.
    - split; [eapply Rle_trans; [exact E1|]|eapply Rle_trans; [exact E2|]]; nra. }
  assert (HE : 0 <= u * Rabs K * (8 * H + 73 / 10)) by (apply Rmult_le_pos; lra).
  destruct (G (- K) (- K') s s') as [X1 X2]; [apply Rabs_Ropp|rewrite Rabs_Ropp; exact BK|replace (- K' - - K) with (- (K' - K)) by ring; rewrite Rabs_Ropp; exact DK|lra|lra|].
  assert (Fin : forall y y', Rabs (y' - K * y) <= u * Rabs K * (8 * H + 73 / 10) -> Rabs y' <= 21 / 10 * Rabs K ->
    near3 (@rotate_vector R bool (rounded rd) o (rd OMul (- K') s' (- K' * s')) y') (@rotate_vector R bool NumR o (- K * s) (K * y)) (85 * u * Rabs K * (1 + H))).
  { intros y y' Y1 Y2. destruct (spin_close o _ _ _ _ _ _ Ht Ho HE X2 Y2 X1 Y1) as (N1 & N2 & N3). repeat split; (eapply Rle_trans; [eassumption|nra]). }
  destruct (o_ecc o) as [d|] eqn:Ee.
  - destruct (Ho d Ee) as (He & _). destruct (rd_close u rd Acc OAdd c' (e_ecc d) (c' + e_ecc d) (c + e_ecc d) (8 * u * H + u) (202 / 100)) as [C1 C2].
    { replace (c' + e_ecc d - (c + e_ecc d)) with (c' - c) by ring. exact T2. }
    { eapply Rle_trans; [apply Rabs_triang|]. rewrite (Rabs_pos_eq (e_ecc d)) by lra. lra. }
    destruct (G K K' (c + e_ecc d) (rd OAdd c' (e_ecc d) (c' + e_ecc d))) as [Y1 Y2]; [reflexivity|exact BK|exact DK|lra|lra|]. apply Fin; assumption.
  - destruct (G K K' c c') as [Y1 Y2]; [reflexivity|exact BK|exact DK|lra|lra|]. apply Fin; assumption.
Qed.

(** radial velocities with a given semi-amplitude *)
Lemma amplitude_close k o t K out : oriented u o -> 0 <= o_n o -> exists v v',
  @get_radial_velocity R bool (rounded rd) k o (@kep_warp R bool (rounded rd) o) t (Some K) out = Ok v' /\
  @get_radial_velocity R bool NumR k o (@kep_warp R bool NumR o) t (Some K) out = Ok v /\ Rabs (v' - v) <= 17 * u * Rabs K * (1 + slack o ^ 3 * swing o t).
Proof.
  intros Ho Hn. assert (Hs := slack_1 o Ho). assert (Hw := swing_pos o t Hn). assert (P3 : 0 < slack o ^ 3) by (apply pow_lt; lra). assert (U' := U).
  assert (T := anomaly_close o t Ho Hn true). cbv zeta in T. unfold get_radial_velocity.
  destruct (@true_anomaly R bool (rounded rd) o (@kep_warp R bool (rounded rd) o) true t) as [s' c']. destruct (@true_anomaly R bool NumR o (@kep_warp R bool NumR o) true t) as [s c].
  cbn [fst snd] in T. destruct T as (T1 & T2 & T3 & T4 & T5 & T6). unfold doubt in T1, T2. set (H := slack o ^ 3 * swing o t) in *. assert (Hh : 0 <= H) by (unfold H; nra).
  eexists. eexists. split; [reflexivity|]. split; [reflexivity|]. cbn [nmul nadd nsub nsqz rounded NumR]. assert (PA := Rabs_pos K).
  assert (0 <= u * Rabs K) by nra. assert (0 <= u * Rabs K * H) by (apply Rmult_le_pos; assumption).
  assert (G : forall x x', Rabs (x' - x) <= 168 / 10 * u * H + 114 / 10 * u -> Rabs x' <= 32 / 10 -> Rabs (rd OMul K x' (K * x') - K * x) <= 17 * u * Rabs K * (1 + H)).
  { intros x x' D1 D2. destruct (rd_close u rd Acc OMul K x' (K * x') (K * x) (Rabs K * (168 / 10 * u * H + 114 / 10 * u) + 0 * 4) (Rabs K * (32 / 10))) as [E1 E2].
    - apply prod_close; try assumption; [lra|lra|]. rewrite Rminus_eq_0, Rabs_R0. lra.
    - rewrite Rabs_mult. apply Rmult_le_compat_l; assumption.
    - eapply Rle_trans; [exact E1|]. nra. }
  assert (HH : 0 <= u * H) by nra. destruct (o_ecc o) as [d|] eqn:Ee.
  - destruct (Ho d Ee) as (He & Hc & Hs2). assert (HE : 0 <= 8 * u * H + u) by nra.
    destruct (mix_close (e_cosw d) (e_sinw d) c s c' s' (8 * u * H + u) (1 + u) HE Hc Hs2 T4 T3 T2 T1) as ((P1 & P2) & _). cbv zeta in P1, P2.
    match type of P2 with Rabs ?X <= _ => set (m := X) in * end.
    assert (Be : Rabs (e_ecc d * e_cosw d) <= 1 + u) by (rewrite Rabs_mult, (Rabs_pos_eq (e_ecc d)) by lra; assert (Z := Rabs_pos (e_cosw d)); nra).
    destruct (rd_close u rd Acc OMul (e_ecc d) (e_cosw d) (e_ecc d * e_cosw d) (e_ecc d * e_cosw d) 0 (1 + u)) as [Q1 Q2]; [rewrite Rminus_eq_0, Rabs_R0; lra|exact Be|].
    set (p := rd OMul (e_ecc d) (e_cosw d) (e_ecc d * e_cosw d)) in *.
    assert (Uu : u * (1 + u) <= 101 / 100 * u) by nra. assert (Q3 : (1 + u) * (1 + u) <= 103 / 100) by nra. assert (T7 := Rabs_triang m p).
    destruct (rd_close u rd Acc OAdd m p (m + p) (e_cosw d * c - e_sinw d * s + e_ecc d * e_cosw d) (21 / 10 * (8 * u * H + u) + 42 / 10 * (101 / 100 * u) + 101 / 100 * u) (316 / 100)) as [V1 V2].
    { replace (m + p - (e_cosw d * c - e_sinw d * s + e_ecc d * e_cosw d)) with (m - (e_cosw d * c - e_sinw d * s) + (p - e_ecc d * e_cosw d)) by ring. eapply Rle_trans; [apply Rabs_triang|]. lra. }
    { lra. }
    apply G; [eapply Rle_trans; [exact V1|]; lra|eapply Rle_trans; [exact V2|]; nra].
  - apply G; lra.
Qed.

(** positions *)
Lemma range_close o t A c c' : oriented u o -> 0 <= o_n o -> u * slack o * (6 + 8 * (slack o ^ 3 * swing o t)) <= 1 / 10 -> Rabs (c' - c) <= doubt o t -> Rabs c' <= 1 + u -> Rabs c <= 1 ->
  forall d, o_ecc o = Some d ->
  let e := e_ecc d in let e2 := rd OMul e e (e * e) in let l := rd OLit 1 0 1 in
  let w := rd OSub l e2 (l - e2) in let p := rd OMul A w (A * w) in
  let ec := rd OMul e c' (e * c') in let d' := rd OAdd l ec (l + ec) in
  let r := A * (1 - e * e) / (1 + e * c) in
  Rabs (rd ODiv p d' (p / d') - r) <= Rabs A * (slack o * (23 / 10 * doubt o t + 21 * u)) /\ Rabs (rd ODiv p d' (p / d')) <= 26 / 10 * Rabs A /\ Rabs r <= 2 * Rabs A.
Proof.
  intros Ho Hn Sm Dc Bc Bc1 d Ee e e2 l w p ec d' r. destruct (Ho d Ee) as (He & _). fold e in He. assert (U' := U).
  assert (Sl : slack o = / (1 - e)) by (unfold slack; rewrite Ee; reflexivity). assert (Hs := slack_1 o Ho). assert (Hw := swing_pos o t Hn).
  set (q := slack o) in *. assert (Q : q * (1 - e) = 1) by (rewrite Sl; field; lra). set (D := doubt o t) in *. assert (HD : 0 <= D) by (eapply Rle_trans; [apply Rabs_pos|exact Dc]).
  assert (SmD : q * (D + 5 * u) <= 1 / 10). { unfold D, doubt. fold q. replace (q * (8 * u * (q ^ 3 * swing o t) + u + 5 * u)) with (u * q * (6 + 8 * (q ^ 3 * swing o t))) by ring. exact Sm. }
  assert (e1 : 0 <= e * e <= 1) by nra.
  destruct (rd_close u rd Acc OLit 1 0 1 1 0 1) as [L1 L2]; [rewrite Rminus_eq_0, Rabs_R0; lra|rewrite Rabs_R1; lra|]. fold l in L1, L2.
  destruct (rd_close u rd Acc OMul e e (e * e) (e * e) 0 1) as [E1 E2]; [rewrite Rminus_eq_0, Rabs_R0; lra|rewrite Rabs_pos_eq; lra|]. fold e2 in E1, E2.
  destruct (rd_close u rd Acc OSub l e2 (l - e2) (1 - e * e) (2 * u) (205 / 100)) as [W1 W2].
  { replace (l - e2 - (1 - e * e)) with (l - 1 + - (e2 - e * e)) by ring. eapply Rle_trans; [apply Rabs_triang|]. rewrite Rabs_Ropp. lra. }
  { unfold Rminus. eapply Rle_trans; [apply Rabs_triang|]. rewrite Rabs_Ropp. lra. }
  fold w in W1, W2.
  destruct (rd_close u rd Acc OMul e c' (e * c') (e * c) D (101 / 100)) as [C1 C2].
  { replace (e * c' - e * c) with (e * (c' - c)) by ring. rewrite Rabs_mult, (Rabs_pos_eq e) by lra. assert (Z := Rabs_pos (c' - c)). nra. }
  { rewrite Rabs_mult, (Rabs_pos_eq e) by lra. assert (Z := Rabs_pos c'). nra. }
  fold ec in C1, C2.
  destruct (rd_close u rd Acc OAdd l ec (l + ec) (1 + e * c) (u + (D + u * (101 / 100))) (205 / 100)) as [D1 D2].
  { replace (l + ec - (1 + e * c)) with (l - 1 + (ec - e * c)) by ring. eapply Rle_trans; [apply Rabs_triang|]. lra. }
  { eapply Rle_trans; [apply Rabs_triang|]. lra. }
  fold d' in D1, D2. assert (D3 : Rabs (d' - (1 + e * c)) <= D + 5 * u) by lra.
  assert (Bc2 : -1 <= c <= 1) by (apply Rabs_le_between; exact Bc1). assert (Dn : 1 - e <= 1 + e * c) by nra. set (dn := 1 + e * c) in *. set (w0 := 1 - e * e) in *.
  assert (Dq : 1 <= q * dn) by nra. assert (Dl : 9 / 10 <= q * d'). { apply Rabs_le_between in D3. nra. }
  assert (Pd : 0 < d') by nra. assert (Pn : 0 < dn) by nra.
  assert (Wd : 0 <= w0 / dn <= 2). { unfold w0, dn in *. split; [apply Rmult_le_pos; [nra|left; apply Rinv_0_lt_compat; exact Pn]|]. apply (Rmult_le_reg_r (1 + e * c)); [exact Pn|]. unfold Rdiv. rewrite Rmult_assoc, Rinv_l by lra. nra. }
  assert (I' : 0 < / d' <= 10 / 9 * q). { split; [apply Rinv_0_lt_compat; exact Pd|]. apply (Rmult_le_reg_r d'); [exact Pd|]. rewrite Rinv_l by lra. nra. }
  assert (W3 : Rabs (w - w0) <= 41 / 10 * u) by lra.
  assert (X : Rabs (w / d' - w0 / dn) <= 10 / 9 * q * (41 / 10 * u + 2 * (D + 5 * u))).
  { replace (w / d' - w0 / dn) with (((w - w0) + - (w0 / dn * (d' - dn))) * / d') by (field; lra). rewrite Rabs_mult, (Rabs_pos_eq (/ d')) by lra. rewrite Rmult_comm.
    apply Rmult_le_compat; [lra|apply Rabs_pos|lra|]. eapply Rle_trans; [apply Rabs_triang|]. rewrite Rabs_Ropp, Rabs_mult, (Rabs_pos_eq (w0 / dn)) by lra. assert (Z := Rabs_pos (d' - dn)). nra. }
  assert (PA := Rabs_pos A). assert (Qu : q * u <= 1 / 50) by nra. assert (QD : q * D <= 1 / 10) by nra. assert (0 <= q * u) by nra. assert (0 <= q * D) by nra.
  assert (X2 : Rabs (w / d') <= 24 / 10). { eapply Rle_trans; [apply (abs_diff (w0 / dn))|]. rewrite (Rabs_pos_eq (w0 / dn)) by lra. nra. }
  destruct (rd_close u rd Acc OMul A w (A * w) (A * w) 0 (Rabs A * Rabs w)) as [P1 P2]; [rewrite Rminus_eq_0, Rabs_R0; lra|rewrite Rabs_mult; lra|]. fold p in P1, P2.
  assert (Xw : Rabs w * / d' = Rabs (w / d')). { unfold Rdiv. rewrite Rabs_mult, (Rabs_pos_eq (/ d')) by lra. reflexivity. }
  assert (Y1 : Rabs (p / d' - A * (w / d')) <= u * Rabs A * (24 / 10)).
  { replace (p / d' - A * (w / d')) with ((p - A * w) * / d') by (field; lra). rewrite Rabs_mult, (Rabs_pos_eq (/ d')) by lra. apply Rle_trans with (u * Rabs A * (Rabs w * / d')); [|rewrite Xw; apply Rmult_le_compat_l; [nra|exact X2]].
    replace (u * Rabs A * (Rabs w * / d')) with ((0 + u * (Rabs A * Rabs w)) * / d') by ring. apply Rmult_le_compat_r; lra. }
  assert (Y2 : Rabs (A * (w / d') - r) <= Rabs A * (10 / 9 * q * (41 / 10 * u + 2 * (D + 5 * u)))).
  { unfold r. fold w0 dn. replace (A * (w / d') - A * w0 / dn) with (A * (w / d' - w0 / dn)) by (field; lra). rewrite Rabs_mult. apply Rmult_le_compat_l; [exact PA|exact X]. }
  assert (Z1 : Rabs r <= 2 * Rabs A). { unfold r. fold w0 dn. replace (A * w0 / dn) with (A * (w0 / dn)) by (field; lra). rewrite Rabs_mult, (Rabs_pos_eq (w0 / dn)) by lra. nra. }
  assert (Y3 : Rabs (p / d') <= 25 / 10 * Rabs A).
  { eapply Rle_trans; [apply (abs_diff (A * (w / d')))|]. rewrite Rabs_mult. assert (Rabs A * Rabs (w / d') <= Rabs A * (24 / 10)) by (apply Rmult_le_compat_l; assumption). nra. }
  destruct (rd_close u rd Acc ODiv p d' (p / d') r (u * Rabs A * (24 / 10) + Rabs A * (10 / 9 * q * (41 / 10 * u + 2 * (D + 5 * u)))) (25 / 10 * Rabs A)) as [V1 V2].
  { replace (p / d' - r) with (p / d' - A * (w / d') + (A * (w / d') - r)) by ring. eapply Rle_trans; [apply Rabs_triang|]. lra. }
  { exact Y3. }
  split; [|split; [eapply Rle_trans; [exact V2|]; nra|exact Z1]]. eapply Rle_trans; [exact V1|].
  replace (u * Rabs A * (24 / 10) + Rabs A * (10 / 9 * q * (41 / 10 * u + 2 * (D + 5 * u))) + u * (25 / 10 * Rabs A)) with (Rabs A * (49 / 10 * u + 10 / 9 * (141 / 10 * (q * u) + 2 * (q * D)))) by lra.
  apply Rmult_le_compat_l; [exact PA|]. assert (u <= q * u) by nra. lra.
Qed.
Lemma place_close k o t A : turned u o -> oriented u o -> 0 <= o_n o -> u * slack o * (6 + 8 * (slack o ^ 3 * swing o t)) <= 1 / 10 ->
  near3 (@position_nodelay R bool (rounded rd) k o (@kep_warp R bool (rounded rd) o) A t None true)
        (@position_nodelay R bool NumR k o (@kep_warp R bool NumR o) A t None true) (210 * u * Rabs A * slack o * (1 + slack o ^ 3 * swing o t)).
Proof.
  intros Ht Ho Hn Sm. assert (Hs := slack_1 o Ho). assert (Hw := swing_pos o t Hn). assert (P3 : 0 < slack o ^ 3) by (apply pow_lt; lra). assert (U' := U).
  assert (T := anomaly_close o t Ho Hn true). cbv zeta in T. unfold position_nodelay.
  destruct (@true_anomaly R bool (rounded rd) o (@kep_warp R bool (rounded rd) o) true t) as [s' c']. destruct (@true_anomaly R bool NumR o (@kep_warp R bool NumR o) true t) as [s c].
  cbn [fst snd] in T. destruct T as (T1 & T2 & T3 & T4 & T5 & T6).
  assert (PA := Rabs_pos A). assert (Hh : 0 <= slack o ^ 3 * swing o t) by nra.
  assert (G : forall r r', Rabs (r' - r) <= Rabs A * (slack o * (23 / 10 * doubt o t + 21 * u)) -> Rabs r' <= 26 / 10 * Rabs A -> Rabs r <= 2 * Rabs A ->
    near3 (@rotate_vector R bool (rounded rd) o (rd OMul r' c' (r' * c')) (rd OMul r' s' (r' * s'))) (@rotate_vector R bool NumR o (r * c) (r * s)) (210 * u * Rabs A * slack o * (1 + slack o ^ 3 * swing o t))).
  { intros r r' R1 R2 R3. set (q := slack o) in *. set (D := doubt o t) in *. assert (HD : 0 <= D) by (eapply Rle_trans; [apply Rabs_pos|exact T1]).
    assert (ED : D = 8 * u * (q ^ 3 * swing o t) + u) by reflexivity. set (H := q ^ 3 * swing o t) in *.
    assert (Z0 : 0 <= u * Rabs A) by nra. assert (Z1 : 0 <= Rabs A * D) by nra. assert (Z2 : Rabs A * D <= Rabs A * D * q) by nra. assert (Z3 : u * Rabs A <= u * Rabs A * q) by nra.
    assert (Z4 : 0 <= u * Rabs A * q * H) by (apply Rmult_le_pos; [apply Rmult_le_pos; lra|exact Hh]).
    assert (F : forall x x', Rabs (x' - x) <= D -> Rabs x' <= 1 + u -> Rabs (rd OMul r' x' (r' * x') - r * x) <= Rabs A * q * (44 / 10 * D + 24 * u) /\ Rabs (rd OMul r' x' (r' * x')) <= 27 / 10 * Rabs A).
    { intros x x' D1 D2. destruct (rd_close u rd Acc OMul r' x' (r' * x') (r * x) (2 * Rabs A * D + Rabs A * (q * (23 / 10 * D + 21 * u)) * (1 + u)) (26 / 10 * Rabs A * (1 + u))) as [E1 E2].
      - apply (prod_close r r' x x'); assumption.
      - rewrite Rabs_mult. apply Rmult_le_compat; try apply Rabs_pos; assumption.
      - split.
        + eapply Rle_trans; [exact E1|]. assert (Y : 0 <= Rabs A * (q * (23 / 10 * D + 21 * u))) by (apply Rmult_le_pos; nra). 
          assert (Rabs A * (q * (23 / 10 * D + 21 * u)) * (1 + u) <= Rabs A * (q * (23 / 10 * D + 21 * u)) * (101 / 100)) by (apply Rmult_le_compat_l; lra).
          assert (u * (26 / 10 * Rabs A * (1 + u)) <= u * (26 / 10 * Rabs A) * (101 / 100)) by nra. nra.
        + eapply Rle_trans; [exact E2|]. nra. }
    destruct (F c c' T2 T4) as [X1 X2]. destruct (F s s' T1 T3) as [Y1 Y2].
    assert (HE : 0 <= Rabs A * q * (44 / 10 * D + 24 * u)) by (apply Rmult_le_pos; nra).
    destruct (spin_close o _ _ _ _ _ _ Ht Ho HE X2 Y2 X1 Y1) as (N1 & N2 & N3).
    assert (Fin : 5 * (Rabs A * q * (44 / 10 * D + 24 * u)) + 22 * (u * (27 / 10 * Rabs A)) <= 210 * u * Rabs A * q * (1 + H)).
    { rewrite ED. replace (5 * (Rabs A * q * (44 / 10 * (8 * u * H + u) + 24 * u))) with (176 * (u * Rabs A * q * H) + 142 * (u * Rabs A * q)) by lra. nra. }
    repeat split; (eapply Rle_trans; [eassumption|exact Fin]). }
  destruct (o_ecc o) as [d|] eqn:Ee.
  - destruct (range_close o t A c c' Ho Hn Sm T2 T4 T6 d Ee) as (R1 & R2 & R3). exact (G _ _ R1 R2 R3).
  - apply G; [|lra|lra]. rewrite Rminus_eq_0, Rabs_R0. apply Rmult_le_pos; [exact PA|]. unfold doubt. apply Rmult_le_pos; [lra|]. assert (0 <= u * (slack o ^ 3 * swing o t)) by nra. lra.
Qed.
End V.
