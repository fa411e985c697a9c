(** * Proofs: the motion on circular orbits with rounding errors *)
From Coq Require Import Reals Lra Lia Psatz Bool List.
From Coquelicot Require Import Rcomplements.
From Verif Require Import Num CoreOps Inst M_units M_kepler Spec_orbit Spec_params Spec_float L_real L_kepop L_orbit L_float L_float2 L_float3.
Open Scope R_scope.

Lemma cos_lip a b : Rabs (cos a - cos b) <= Rabs (a - b).
Proof.
  assert (K := sin_lipschitz (PI / 2 - a) (PI / 2 - b)). rewrite <- !cos_sin in K || rewrite !sin_shift in K.
  eapply Rle_trans; [exact K|]. right. replace (PI / 2 - a - (PI / 2 - b)) with (- (a - b)) by ring. apply Rabs_Ropp.
Qed.
Lemma abs_diff x x' : Rabs x' <= Rabs x + Rabs (x' - x).
Proof. assert (K := Rabs_triang x (x' - x)). replace (x + (x' - x)) with x' in K by ring. exact K. Qed.

Section V.
Variable u : R.
Variable rd : rounder.
Hypothesis Acc : accurate u rd.
Let U := proj1 Acc.

(** the rounded result r' of an operation with exact result y near x *)
Lemma rd_close op a b y x E B : Rabs (y - x) <= E -> Rabs y <= B -> Rabs (rd op a b y - x) <= E + u * B /\ Rabs (rd op a b y) <= (1 + u) * B.
Proof.
  intros H L. assert (K := proj2 Acc op a b y). assert (U' := U). assert (u * Rabs y <= u * B) by (apply Rmult_le_compat_l; lra).
  split; [replace (rd op a b y - x) with (rd op a b y - y + (y - x)) by ring; eapply Rle_trans; [apply Rabs_triang|lra]|].
  eapply Rle_trans; [apply (abs_diff y)|]. lra.
Qed.
Lemma prod_close c c' x x' C X ec ex : Rabs c <= C -> Rabs x' <= X -> Rabs (c' - c) <= ec -> Rabs (x' - x) <= ex -> Rabs (c' * x' - c * x) <= C * ex + ec * X.
Proof.
  intros H1 H2 H3 H4. replace (c' * x' - c * x) with (c * (x' - x) + (c' - c) * x') by ring. eapply Rle_trans; [apply Rabs_triang|]. rewrite !Rabs_mult.
  assert (P1 := Rabs_pos c). assert (P2 := Rabs_pos x'). assert (P3 := Rabs_pos (c' - c)). assert (P4 := Rabs_pos (x' - x)).
  apply Rplus_le_compat; apply Rmult_le_compat; assumption.
Qed.
Lemma mean_close n t t0 tref : 0 <= n ->
  let d := rd OSub t t0 (t - t0) in let s := rd OSub d tref (d - tref) in
  Rabs (rd OMul s n (s * n) - (t - t0 - tref) * n) <= 4 * u * (n * (Rabs (t - t0) + Rabs tref)).
Proof.
  intros Hn d s. assert (U' := U). assert (P1 := Rabs_pos (t - t0)). assert (P2 := Rabs_pos tref). set (h := Rabs (t - t0)) in *. set (f := Rabs tref) in *.
  destruct (rd_close OSub t t0 (t - t0) (t - t0) 0 h) as [A1 A2]; [rewrite Rminus_eq_0, Rabs_R0; lra|unfold h; lra|]. fold d in A1, A2.
  destruct (rd_close OSub d tref (d - tref) (t - t0 - tref) (0 + u * h) ((1 + u) * h + f)) as [B1 B2].
  { replace (d - tref - (t - t0 - tref)) with (d - (t - t0)) by ring. exact A1. }
  { unfold Rminus. eapply Rle_trans; [apply Rabs_triang|]. rewrite Rabs_Ropp. fold f. lra. }
  fold s in B1, B2. destruct (rd_close OMul s n (s * n) ((t - t0 - tref) * n) ((0 + u * h + u * ((1 + u) * h + f)) * n) ((1 + u) * ((1 + u) * h + f) * n)) as [C1 _].
  { replace (s * n - (t - t0 - tref) * n) with ((s - (t - t0 - tref)) * n) by ring. rewrite Rabs_mult, (Rabs_pos_eq n) by exact Hn. apply Rmult_le_compat_r; [exact Hn|exact B1]. }
  { rewrite Rabs_mult, (Rabs_pos_eq n) by exact Hn. apply Rmult_le_compat_r; [exact Hn|exact B2]. }
  eapply Rle_trans; [exact C1|].
  replace ((0 + u * h + u * ((1 + u) * h + f)) * n + u * ((1 + u) * ((1 + u) * h + f) * n)) with (u * n * (h + (1 + u) * h + f + (1 + u) * ((1 + u) * h + f))) by ring.
  replace (4 * u * (n * (h + f))) with (u * n * (4 * (h + f))) by ring. apply Rmult_le_compat_l; [nra|].
  assert (u * h <= 1 / 100 * h) by (apply Rmult_le_compat_r; lra). assert (u * f <= 1 / 100 * f) by (apply Rmult_le_compat_r; lra). nra.
Qed.

(** the rotation into the observer's frame *)
Lemma fixed_prod c x x' E B : 0 <= E -> 0 <= B -> Rabs c <= 1 + u -> Rabs x' <= B -> Rabs (x' - x) <= E ->
  Rabs (rd OMul c x' (c * x') - c * x) <= 102 / 100 * E + 102 / 100 * (u * B) /\ Rabs (rd OMul c x' (c * x')) <= 103 / 100 * B.
Proof.
  intros HE HB Hc Hx Hd. assert (U' := U). destruct (rd_close OMul c x' (c * x') (c * x) ((1 + u) * E + 0 * B) ((1 + u) * B)) as [A1 A2].
  { apply prod_close; try assumption. rewrite Rminus_eq_0, Rabs_R0. lra. }
  { rewrite Rabs_mult. apply Rmult_le_compat; try apply Rabs_pos; assumption. }
  assert (u * E <= 1 / 100 * E) by (apply Rmult_le_compat_r; lra). assert (u * B <= 1 / 100 * B) by (apply Rmult_le_compat_r; lra).
  assert (0 <= u * B) by nra. assert (u * (u * B) <= 1 / 100 * (u * B)) by (apply Rmult_le_compat_r; lra). split.
  - eapply Rle_trans; [exact A1|]. replace ((1 + u) * E + 0 * B + u * ((1 + u) * B)) with (E + u * E + u * B + u * (u * B)) by ring. lra.
  - eapply Rle_trans; [exact A2|]. replace ((1 + u) * ((1 + u) * B)) with (B + 2 * (u * B) + u * (u * B)) by ring. lra.
Qed.
Lemma rotate_close o x y x' y' E B : turned u o -> o_ecc o = None -> 0 <= E -> Rabs x' <= B -> Rabs y' <= B -> Rabs (x' - x) <= E -> Rabs (y' - y) <= E ->
  near3 (@rotate_vector R bool (rounded rd) o x' y') (@rotate_vector R bool NumR o x y) (21 / 10 * E + 6 * (u * B)).
Proof.
  intros (Hc & Hs & HO) He HE Bx By Dx Dy. assert (U' := U). assert (HB : 0 <= B) by (eapply Rle_trans; [apply Rabs_pos|exact Bx]).
  assert (0 <= u * B) by nra. assert (u * B <= 1 / 100 * B) by (apply Rmult_le_compat_r; lra). assert (u * (u * B) <= 1 / 100 * (u * B)) by (apply Rmult_le_compat_r; lra).
  unfold rotate_vector. rewrite He. cbn [nmul nneg nsub nadd rounded NumR].
  destruct (fixed_prod (o_cos_incl o) y y' E B HE HB Hc By Dy) as [Y1 Y2].
  destruct (fixed_prod (- o_sin_incl o) y y' E B HE HB) as [Z1 Z2]; [rewrite Rabs_Ropp; exact Hs|exact By|exact Dy|].
  destruct (o_Omega o) as [w|]. 2:{ unfold near3. cbn [fst snd]. repeat split; lra. }
  destruct (HO w eq_refl) as [W1 W2]. set (y2 := rd OMul (o_cos_incl o) y' (o_cos_incl o * y')) in *. set (z2 := rd OMul (- o_sin_incl o) y' (- o_sin_incl o * y')) in *.
  destruct (fixed_prod (O_cos w) x x' E B HE HB W1 Bx Dx) as [P1 P2]. destruct (fixed_prod (O_sin w) x x' E B HE HB W2 Bx Dx) as [Q1 Q2].
  assert (HE2 : 0 <= 102 / 100 * E + 102 / 100 * (u * B)) by lra. assert (HB2 : 0 <= 103 / 100 * B) by lra.
  destruct (fixed_prod (O_sin w) (o_cos_incl o * y) y2 _ _ HE2 HB2 W2 Y2 Y1) as [R1 R2]. destruct (fixed_prod (O_cos w) (o_cos_incl o * y) y2 _ _ HE2 HB2 W1 Y2 Y1) as [S1 S2].
  unfold near3. cbn [fst snd].
  set (p := rd OMul (O_cos w) x' (O_cos w * x')) in *. set (q := rd OMul (O_sin w) x' (O_sin w * x')) in *. set (r := rd OMul (O_sin w) y2 (O_sin w * y2)) in *. set (s := rd OMul (O_cos w) y2 (O_cos w * y2)) in *.
  assert (T1 := Rabs_triang p (- r)). rewrite Rabs_Ropp in T1. assert (T2 := Rabs_triang q s).
  destruct (rd_close OSub p r (p - r) (O_cos w * x - O_sin w * (o_cos_incl o * y)) (102 / 100 * E + 102 / 100 * (u * B) + (102 / 100 * (102 / 100 * E + 102 / 100 * (u * B)) + 102 / 100 * (u * (103 / 100 * B)))) (103 / 100 * B + 103 / 100 * (103 / 100 * B))) as [V1 _].
  { replace (p - r - (O_cos w * x - O_sin w * (o_cos_incl o * y))) with (p - O_cos w * x + - (r - O_sin w * (o_cos_incl o * y))) by ring. eapply Rle_trans; [apply Rabs_triang|]. rewrite Rabs_Ropp. lra. }
  { unfold Rminus. lra. }
  destruct (rd_close OAdd q s (q + s) (O_sin w * x + O_cos w * (o_cos_incl o * y)) (102 / 100 * E + 102 / 100 * (u * B) + (102 / 100 * (102 / 100 * E + 102 / 100 * (u * B)) + 102 / 100 * (u * (103 / 100 * B)))) (103 / 100 * B + 103 / 100 * (103 / 100 * B))) as [V2 _].
  { replace (q + s - (O_sin w * x + O_cos w * (o_cos_incl o * y))) with (q - O_sin w * x + (s - O_cos w * (o_cos_incl o * y))) by ring. eapply Rle_trans; [apply Rabs_triang|]. lra. }
  { lra. }
  repeat split; [eapply Rle_trans; [exact V1|lra]|eapply Rle_trans; [exact V2|lra]|lra].
Qed.

(** sine and cosine of the rounded mean anomaly *)
Lemma trig_close o t : o_ecc o = None -> 0 <= o_n o -> let H := o_n o * (Rabs (t - o_t0 o) + Rabs (o_tref o)) in
  forall b, let f := @true_anomaly R bool (rounded rd) o (@kep_warp R bool (rounded rd) o) b t in let g := @true_anomaly R bool NumR o (@kep_warp R bool NumR o) b t in
  Rabs (fst f - fst g) <= 4 * u * H + u /\ Rabs (snd f - snd g) <= 4 * u * H + u /\ Rabs (fst f) <= 1 + u /\ Rabs (snd f) <= 1 + u.
Proof.
  intros He Hn H b f g. assert (M := mean_close (o_n o) t (o_t0 o) (o_tref o) Hn). cbv zeta in M. fold H in M.
  assert (Ef : f = let s := rd OSub (rd OSub t (o_t0 o) (t - o_t0 o)) (o_tref o) (rd OSub t (o_t0 o) (t - o_t0 o) - o_tref o) in
     let m := rd OMul s (o_n o) (s * o_n o) in (rd OSin m 0 (sin m), rd OCos m 0 (cos m))).
  { unfold f, true_anomaly, kep_warp. rewrite He. destruct b; reflexivity. }
  assert (Eg : g = (sin ((t - o_t0 o - o_tref o) * o_n o), cos ((t - o_t0 o - o_tref o) * o_n o))).
  { unfold g, true_anomaly, kep_warp. rewrite He. destruct b; reflexivity. }
  rewrite Ef, Eg. cbv zeta. cbn [fst snd]. match type of M with Rabs (?m - ?m') <= _ => set (m1 := m) in *; set (m2 := m') in * end.
  assert (S1 := SIN_bound m1). assert (C1 := COS_bound m1).
  destruct (rd_close OSin m1 0 (sin m1) (sin m2) (4 * u * H) 1) as [A1 A2]; [eapply Rle_trans; [apply sin_lipschitz|exact M]|apply Rabs_le; lra|].
  destruct (rd_close OCos m1 0 (cos m1) (cos m2) (4 * u * H) 1) as [B1 B2]; [eapply Rle_trans; [apply cos_lip|exact M]|apply Rabs_le; lra|].
  rewrite Rmult_1_r in *. auto.
Qed.

Lemma position_close k o t A : turned u o -> o_ecc o = None -> 0 <= o_n o ->
  near3 (@position_nodelay R bool (rounded rd) k o (@kep_warp R bool (rounded rd) o) A t None true)
        (@position_nodelay R bool NumR k o (@kep_warp R bool NumR o) A t None true) (u * Rabs A * (11 + 9 * swing o t)).
Proof.
  intros Ht He Hn. assert (T := trig_close o t He Hn true). cbv zeta in T. unfold position_nodelay.
  destruct (@true_anomaly R bool (rounded rd) o (@kep_warp R bool (rounded rd) o) true t) as [s' c']. destruct (@true_anomaly R bool NumR o (@kep_warp R bool NumR o) true t) as [s c].
  cbn [fst snd] in T. destruct T as (T1 & T2 & T3 & T4). rewrite He. fold (swing o t) in T1, T2. assert (Hh : 0 <= swing o t). { unfold swing. apply Rmult_le_pos; [exact Hn|]. assert (K1 := Rabs_pos (t - o_t0 o)). assert (K2 := Rabs_pos (o_tref o)). lra. }
  set (H := swing o t) in *. assert (U' := U). assert (PA := Rabs_pos A). cbn [nmul rounded NumR].
  assert (G : forall x x', Rabs (x' - x) <= 4 * u * H + u -> Rabs x' <= 1 + u -> Rabs (rd OMul A x' (A * x') - A * x) <= u * Rabs A * (4 * H + 201 / 100) /\ Rabs (rd OMul A x' (A * x')) <= 103 / 100 * Rabs A).
  { intros x x' D1 D2. destruct (rd_close OMul A x' (A * x') (A * x) (Rabs A * (4 * u * H + u) + 0 * 2) (Rabs A * (1 + u))) as [E1 E2].
    - apply prod_close; try assumption; [lra|lra|]. rewrite Rminus_eq_0, Rabs_R0. lra.
    - rewrite Rabs_mult. apply Rmult_le_compat_l; assumption.
    - assert (0 <= u * Rabs A) by nra. assert (u * (u * Rabs A) <= 1 / 100 * (u * Rabs A)) by (apply Rmult_le_compat_r; lra). split; [eapply Rle_trans; [exact E1|]|eapply Rle_trans; [exact E2|]]; nra. }
  destruct (G c c' T2 T4) as [X1 X2]. destruct (G s s' T1 T3) as [Y1 Y2].
  assert (HE : 0 <= u * Rabs A * (4 * H + 201 / 100)) by (apply Rmult_le_pos; nra).
  destruct (rotate_close o _ _ _ _ _ _ Ht He HE X2 Y2 X1 Y1) as (N1 & N2 & N3). assert (0 <= u * Rabs A) by nra. assert (0 <= u * Rabs A * H) by (apply Rmult_le_pos; assumption).
  repeat split; [eapply Rle_trans; [exact N1|]|eapply Rle_trans; [exact N2|]|eapply Rle_trans; [exact N3|]]; nra.
Qed.
Lemma velocity_close o t m : turned u o -> o_ecc o = None -> 0 <= o_n o ->
  near3 (@get_velocity R bool (rounded rd) o (@kep_warp R bool (rounded rd) o) m t)
        (@get_velocity R bool NumR o (@kep_warp R bool NumR o) m t) (u * Rabs (o_K0 o * m) * (13 + 9 * swing o t)).
Proof.
  intros Ht He Hn. assert (T := trig_close o t He Hn true). cbv zeta in T. unfold get_velocity.
  destruct (@true_anomaly R bool (rounded rd) o (@kep_warp R bool (rounded rd) o) true t) as [s' c']. destruct (@true_anomaly R bool NumR o (@kep_warp R bool NumR o) true t) as [s c].
  cbn [fst snd] in T. destruct T as (T1 & T2 & T3 & T4). rewrite He. fold (swing o t) in T1, T2. assert (Hh : 0 <= swing o t). { unfold swing. apply Rmult_le_pos; [exact Hn|]. assert (K1 := Rabs_pos (t - o_t0 o)). assert (K2 := Rabs_pos (o_tref o)). lra. }
  set (H := swing o t) in *. assert (U' := U). cbn [nmul nneg rounded NumR]. set (K := o_K0 o * m). assert (PA := Rabs_pos K).
  assert (DK := proj2 Acc OMul (o_K0 o) m K). set (K' := rd OMul (o_K0 o) m K) in *. assert (BK : Rabs K' <= (1 + u) * Rabs K) by (eapply Rle_trans; [apply (abs_diff K)|]; lra).
  assert (0 <= u * Rabs K) by nra. assert (u * (u * Rabs K) <= 1 / 100 * (u * Rabs K)) by (apply Rmult_le_compat_r; lra).
  assert (G : forall L L' x x', Rabs L = Rabs K -> Rabs L' <= (1 + u) * Rabs K -> Rabs (L' - L) <= u * Rabs K -> Rabs (x' - x) <= 4 * u * H + u -> Rabs x' <= 1 + u -> Rabs (rd OMul L' x' (L' * x') - L * x) <= u * Rabs K * (4 * H + 305 / 100) /\ Rabs (rd OMul L' x' (L' * x')) <= 104 / 100 * Rabs K).
  { intros L L' x x' L1 L2 L3 D1 D2. destruct (rd_close OMul L' x' (L' * x') (L * x) (Rabs K * (4 * u * H + u) + u * Rabs K * (1 + u)) ((1 + u) * Rabs K * (1 + u))) as [E1 E2].
    - apply prod_close; try assumption. lra.
    - rewrite Rabs_mult. apply Rmult_le_compat; try assumption; apply Rabs_pos.
    - assert (u * Rabs K <= 1 / 100 * Rabs K) by (apply Rmult_le_compat_r; lra). assert (u * (u * (u * Rabs K)) <= 1 / 100 * (1 / 100 * (u * Rabs K))) by nra.
      split; [eapply Rle_trans; [exact E1|]|eapply Rle_trans; [exact E2|]]; nra. }
  destruct (G (- K) (- K') s s') as [X1 X2]; [apply Rabs_Ropp|rewrite Rabs_Ropp; exact BK|replace (- K' - - K) with (- (K' - K)) by ring; rewrite Rabs_Ropp; exact DK|exact T1|exact T3|].
  destruct (G K K' c c') as [Y1 Y2]; [reflexivity|exact BK|exact DK|exact T2|exact T4|].
  assert (HE : 0 <= u * Rabs K * (4 * H + 305 / 100)) by (apply Rmult_le_pos; nra).
  destruct (rotate_close o _ _ _ _ _ _ Ht He HE X2 Y2 X1 Y1) as (N1 & N2 & N3). assert (0 <= u * Rabs K * H) by (apply Rmult_le_pos; assumption).
  repeat split; [eapply Rle_trans; [exact N1|]|eapply Rle_trans; [exact N2|]|eapply Rle_trans; [exact N3|]]; nra.
Qed.
Lemma rv_close k o t K out : o_ecc o = None -> 0 <= o_n o -> exists v v',
  @get_radial_velocity R bool (rounded rd) k o (@kep_warp R bool (rounded rd) o) t (Some K) out = Ok v' /\
  @get_radial_velocity R bool NumR k o (@kep_warp R bool NumR o) t (Some K) out = Ok v /\ Rabs (v' - v) <= u * Rabs K * (3 + 4 * swing o t).
Proof.
  intros He Hn. assert (T := trig_close o t He Hn true). cbv zeta in T. unfold get_radial_velocity.
  destruct (@true_anomaly R bool (rounded rd) o (@kep_warp R bool (rounded rd) o) true t) as [s' c']. destruct (@true_anomaly R bool NumR o (@kep_warp R bool NumR o) true t) as [s c].
  cbn [fst snd] in T. destruct T as (T1 & T2 & T3 & T4). rewrite He. fold (swing o t) in T1, T2. eexists. eexists. split; [reflexivity|]. split; [reflexivity|]. cbn [nmul nsqz rounded NumR].
  assert (PA := Rabs_pos K). assert (U' := U). destruct (rd_close OMul K c' (K * c') (K * c) (Rabs K * (4 * u * swing o t + u) + 0 * 2) (Rabs K * (1 + u))) as [E1 E2].
  - apply prod_close; try assumption; [lra|lra|]. rewrite Rminus_eq_0, Rabs_R0. lra.
  - rewrite Rabs_mult. apply Rmult_le_compat_l; assumption.
  - assert (0 <= u * Rabs K) by nra. assert (u * (u * Rabs K) <= 1 / 100 * (u * Rabs K)) by (apply Rmult_le_compat_r; lra). eapply Rle_trans; [exact E1|]. nra.
Qed.
End V.
