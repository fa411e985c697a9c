(** * Rounding errors of one flux *)
From Coq Require Import Reals Lra Lia Psatz Bool List.
From Coquelicot Require Import Coquelicot.
From Verif Require Import Num CoreOps Inst CoreFlux M_units M_kepler M_tensor M_limbdark Spec_orbit Spec_array Spec_light Spec_lip Spec_float Spec_float2 Spec_float3 Spec_float5
  L_real L_flux L_light1 L_float L_float13 L_area.
Import ListNotations.
Open Scope R_scope.

(** the basis integrals *)
Lemma vis_size (g : R -> R) b r C : (forall x, continuous g x) -> 0 <= b -> 0 <= r -> (forall mu, 0 <= mu <= 1 -> Rabs (g mu) <= C) -> Rabs (visible_flux g b r) <= C * PI.
Proof.
  intros Hg Hb Hr HC. unfold visible_flux. assert (I := flux_int g Hg b r Hb Hr).
  assert (J : is_RInt (fun rho => C * (2 * PI) * rho) 0 1 (C * PI)).
  { assert (K := full0). apply (is_RInt_scal _ _ _ C) in K. replace (C * PI) with (scal C PI) by reflexivity. eapply is_RInt_ext; [|exact K]. intros x _. unfold scal, basis0. cbn. unfold mult. cbn. ring. }
  assert (HP := PI_RGT_0).
  assert (T : forall x, 0 <= x <= 1 -> Rabs (g (mu_of x) * visible_angle b r x * x) <= C * (2 * PI) * x).
  { intros x Hx. rewrite !Rabs_mult. assert (A := HC _ (mu_bound x Hx)). assert (B := visible_bounds b r x). rewrite (Rabs_pos_eq (visible_angle b r x)) by lra. rewrite (Rabs_pos_eq x) by lra.
    apply Rmult_le_compat_r; [lra|]. apply Rmult_le_compat; try lra; apply Rabs_pos. }
  apply Rabs_le. assert (EJ : RInt (fun rho => C * (2 * PI) * rho) 0 1 = C * PI) by (apply is_RInt_unique; exact J). rewrite <- EJ. split.
  - replace (- RInt (fun rho => C * (2 * PI) * rho) 0 1) with (RInt (fun rho => - (C * (2 * PI) * rho)) 0 1).
    + apply RInt_le; [lra| |exact I|].
      * exists (opp (C * PI)). apply (is_RInt_opp _ _ _ _ J).
      * intros x Hx. assert (K := T x ltac:(lra)). apply Rabs_le_between in K. lra.
    + rewrite EJ. apply is_RInt_unique. apply (is_RInt_opp _ _ _ _ J).
  - apply RInt_le; [lra|exact I|eexists; exact J|]. intros x Hx. assert (K := T x ltac:(lra)). apply Rabs_le_between in K. lra.
Qed.

Section V.
Variable u eps : R.
Variable rd : rounder.
Hypothesis Acc : accurate u rd.
Hypothesis He : 0 <= eps.
Let U := proj1 Acc.

Lemma rdk s op a b z x k m B k' m' : 0 < s -> Rabs (s * z - x) <= k * u + m * eps -> Rabs x <= B -> 0 <= k -> 0 <= m -> 1.01 * k + B <= k' -> 1.01 * m <= m' ->
  Rabs (s * rd op a b z - x) <= k' * u + m' * eps.
Proof.
  intros Hs H HB Hk Hm K M. assert (R := proj2 Acc op a b z). assert (U' := U). replace (s * rd op a b z - x) with (s * (rd op a b z - z) + (s * z - x)) by ring.
  eapply Rle_trans; [apply Rabs_triang|]. rewrite Rabs_mult, (Rabs_pos_eq s) by lra.
  assert (Z : s * Rabs z <= B + (k * u + m * eps)).
  { replace (s * Rabs z) with (Rabs (s * z)) by (rewrite Rabs_mult, (Rabs_pos_eq s) by lra; reflexivity). replace (s * z) with (x + (s * z - x)) by ring. eapply Rle_trans; [apply Rabs_triang|]. lra. }
  assert (Q : s * Rabs (rd op a b z - z) <= u * (B + (k * u + m * eps))). { apply (Rmult_le_compat_l s) in R; [|lra]. assert (u * (s * Rabs z) <= u * (B + (k * u + m * eps))) by (apply Rmult_le_compat_l; lra). lra. }
  assert (u * (k * u) <= k * u / 100) by (assert (0 <= k * u) by (apply Rmult_le_pos; lra); nra).
  assert (u * (m * eps) <= m * eps / 100) by (assert (0 <= m * eps) by (apply Rmult_le_pos; lra); nra).
  assert (1.01 * k * u + B * u <= k' * u) by nra. assert (1.01 * m * eps <= m' * eps) by nra. nra.
Qed.
Lemma rd1 op a b z x k B k' : Rabs (z - x) <= k * u -> Rabs x <= B -> 0 <= k -> 1.01 * k + B <= k' -> Rabs (rd op a b z - x) <= k' * u.
Proof.
  intros H HB Hk K. assert (A := rdk 1 op a b z x k 0 B k' 0 ltac:(lra)). rewrite !Rmult_1_l in A. assert (R := A ltac:(lra) HB Hk ltac:(lra) K ltac:(lra)). lra.
Qed.
Lemma lit_u x : Rabs (rd OLit x 0 x - x) <= Rabs x * u.
Proof. assert (A := proj2 Acc OLit x 0 x). lra. Qed.

Variables u1 u2 : R.
Hypothesis Hu1 : 0 <= u1.
Hypothesis Hu : u1 + u2 <= 1.
Hypothesis Hu2 : 0 <= u1 + 2 * u2.
Definition k0 := 1 - u1 - 1.5 * u2.
Definition k1 := u1 + 2 * u2.
Definition k2 := -0.25 * u2.
Definition dd := k0 + k1 / 1.5.
Lemma dd_is : dd = 1 - u1 / 3 - u2 / 6.
Proof. unfold dd, k0, k1. lra. Qed.
Lemma dd_range : 1 / 2 <= dd <= 1.
Proof. rewrite dd_is. lra. Qed.
Lemma q_range : Rabs (k0 / dd) <= 1 /\ Rabs (k1 / dd) <= 2.4 /\ Rabs (k2 / dd) <= 0.5.
Proof.
  assert (D := dd_range). assert (E := dd_is). unfold k0, k1, k2. assert (G : forall x B, - B * dd <= x <= B * dd -> Rabs (x / dd) <= B).
  { intros x B H. apply Rabs_le. split; apply (Rmult_le_reg_r dd); try lra; unfold Rdiv; rewrite Rmult_assoc, Rinv_l by lra; lra. }
  repeat split; apply G; rewrite E; lra.
Qed.
Lemma cl_machine : exists a0 a1 a2, @get_cl fl bool (rounded_fl rd) (Fin u1) (Fin u2) = (Fin a0, Fin a1, Fin a2) /\
  Rabs (PI * a0 - k0 / dd) <= 73 * u /\ Rabs (PI * a1 - k1 / dd) <= 146 * u /\ Rabs (PI * a2 - k2 / dd) <= 29 * u.
Proof.
  assert (U' := U). assert (D := dd_range). assert (HP := PI_RGT_0).
  assert (Au1 : 0 <= u1 <= 2) by lra. assert (Au2 : -1 <= u2 <= 1) by lra.
  unfold get_cl. cbn [nlit nadd nsub nmul ndiv rounded_fl]. unfold fsub. cbn [rnd fadd fneg fmul value].
  assert (L1 := lit_u 1). assert (L15 := lit_u 1.5). assert (L2 := lit_u 2). assert (L25 := lit_u (-0.25)). assert (LP := lit_u PI).
  rewrite Rabs_R1 in L1. rewrite (Rabs_pos_eq 1.5) in L15 by lra. rewrite (Rabs_pos_eq 2) in L2 by lra. rewrite (Rabs_left (-0.25)) in L25 by lra. rewrite (Rabs_pos_eq PI) in LP by lra.
  set (l1 := rd OLit 1 0 1) in *. set (l15 := rd OLit 1.5 0 1.5) in *. set (l2 := rd OLit 2 0 2) in *. set (l25 := rd OLit (-0.25) 0 (-0.25)) in *. set (lp := rd OLit PI 0 PI) in *.
  clearbody l1 l15 l2 l25 lp. apply abs_in in L1. apply abs_in in L15. apply abs_in in L2. apply abs_in in L25. apply abs_in in LP.
  set (s1 := rd OSub l1 u1 (l1 + - u1)). assert (S1 : Rabs (s1 - (1 - u1)) <= 2.1 * u).
  { apply (rd1 _ _ _ _ _ 1 1); try lra; apply Rabs_le; lra. }
  set (p := rd OMul l15 u2 (l15 * u2)). assert (Pp : Rabs (p - 1.5 * u2) <= 3.1 * u).
  { apply (rd1 _ _ _ _ _ 1.5 1.5); try lra; apply Rabs_le; split; nra. }
  clearbody s1 p. apply abs_in in S1. apply abs_in in Pp. set (c0 := rd OSub s1 p (s1 + - p)). assert (C0 : Rabs (c0 - k0) <= 6.3 * u).
  { apply (rd1 _ _ _ _ _ 5.2 1); try lra; unfold k0; apply Rabs_le; lra. }
  set (q := rd OMul l2 u2 (l2 * u2)). assert (Qq : Rabs (q - 2 * u2) <= 4.1 * u).
  { apply (rd1 _ _ _ _ _ 2 2); try lra; apply Rabs_le; split; nra. }
  clearbody q. apply abs_in in Qq. set (c1 := rd OAdd u1 q (u1 + q)). assert (C1 : Rabs (c1 - k1) <= 6.2 * u).
  { apply (rd1 _ _ _ _ _ 4.1 2); try lra; unfold k1; apply Rabs_le; lra. }
  set (c2 := rd OMul l25 u2 (l25 * u2)). assert (C2 : Rabs (c2 - k2) <= 0.6 * u).
  { apply (rd1 _ _ _ _ _ 0.25 0.25); try lra; unfold k2; apply Rabs_le; split; nra. }
  clearbody c0 c1 c2. apply abs_in in C0. apply abs_in in C1. apply abs_in in C2.
  assert (N15 : l15 <> 0) by lra. cbn [fdiv]. rewrite (Reqb_ne _ _ N15). cbn [rnd fadd fmul value].
  set (w := rd ODiv c1 l15 (c1 / l15)). assert (W : Rabs (w - k1 / 1.5) <= 7 * u).
  { assert (K1 : 0 <= k1 <= 2) by (unfold k1; lra). apply (rd1 _ _ _ _ _ 5.6 1.34); try lra.
    - replace (c1 / l15 - k1 / 1.5) with ((1.5 * (c1 - k1) + k1 * (1.5 - l15)) / (1.5 * l15)) by (field; lra).
      unfold Rdiv. rewrite Rabs_mult, Rabs_inv. rewrite (Rabs_pos_eq (1.5 * l15)) by lra. apply (Rmult_le_reg_r (1.5 * l15)); [lra|]. rewrite Rmult_assoc, Rinv_l by lra. rewrite Rmult_1_r.
      apply Rabs_le. split; nra.
    - apply Rabs_le. lra. }
  clearbody w. apply abs_in in W. set (d := rd OAdd c0 w (c0 + w)). assert (Dd : Rabs (d - dd) <= 14.5 * u).
  { apply (rd1 _ _ _ _ _ 13.3 1); try lra; apply Rabs_le; [|lra]. unfold dd. lra. }
  clearbody d. apply abs_in in Dd.
  assert (Rn := proj2 Acc OMul lp d (lp * d)). set (n := rd OMul lp d (lp * d)) in *. clearbody n.
  assert (Dp : 0.35 <= d <= 1.15) by lra.
  assert (Nn : exists E, n = PI * E /\ Rabs (E - dd) <= 16.9 * u).
  { exists (n / PI). split; [field; lra|]. replace (n / PI - dd) with ((n - PI * dd) / PI) by (field; lra). unfold Rdiv. rewrite Rabs_mult, (Rabs_pos_eq (/ PI)) by (left; apply Rinv_0_lt_compat; lra).
    apply (Rmult_le_reg_r PI); [lra|]. rewrite Rmult_assoc, Rinv_l by lra. rewrite Rmult_1_r.
    assert (0 <= lp <= 1.01 * PI) by nra. assert (Ld : 0 <= lp * d) by nra. rewrite (Rabs_pos_eq _ Ld) in Rn. apply abs_in in Rn.
    assert (lp * d <= 1.1615 * PI) by nra. assert (Ru : u * (lp * d) <= u * (1.1615 * PI)) by (apply Rmult_le_compat_l; lra).
    assert (A1 : - (1.15 * PI * u) <= (lp - PI) * d <= 1.15 * PI * u) by (split; nra). assert (A2 : - (14.5 * PI * u) <= PI * (d - dd) <= 14.5 * PI * u) by (split; nra).
    apply Rabs_le. split; lra. }
  destruct Nn as (E & -> & EE). apply abs_in in EE. assert (E1 : 0.33 <= E) by lra. assert (Nz : PI * E <> 0) by (apply Rgt_not_eq; apply Rmult_lt_0_compat; lra).
  rewrite !(Reqb_ne _ _ Nz). destruct q_range as (Q0 & Q1 & Q2).
  assert (G : forall c k B e x y, Rabs (c - k) <= e * u -> Rabs (k / dd) <= B -> 0 <= e -> 0 <= B -> Rabs (PI * rd ODiv x y (c / (PI * E)) - k / dd) <= (1.01 * ((e + 16.9 * B) / 0.33) + B) * u).
  { intros c k B e x y H HB H0 HB0. assert (X := rdk PI ODiv x y (c / (PI * E)) (k / dd) ((e + 16.9 * B) / 0.33) 0 B (1.01 * ((e + 16.9 * B) / 0.33) + B) 0 HP).
    assert (Y : Rabs (PI * rd ODiv x y (c / (PI * E)) - k / dd) <= (1.01 * ((e + 16.9 * B) / 0.33) + B) * u + 0 * eps); [apply X; try lra|lra].
    replace (PI * (c / (PI * E)) - k / dd) with (((c - k) + (k / dd) * (dd - E)) / E) by (field; repeat split; lra).
    unfold Rdiv at 1. rewrite Rabs_mult, Rabs_inv, (Rabs_pos_eq E) by lra. apply (Rmult_le_reg_r E); [lra|]. rewrite Rmult_assoc, Rinv_l by lra. rewrite Rmult_1_r.
    assert (T : Rabs (c - k + k / dd * (dd - E)) <= (e + 16.9 * B) * u).
    { eapply Rle_trans; [apply Rabs_triang|]. rewrite Rabs_mult. assert (Rabs (dd - E) <= 16.9 * u) by (apply Rabs_le; lra). assert (Rabs (k / dd) * Rabs (dd - E) <= B * (16.9 * u)) by (apply Rmult_le_compat; try apply Rabs_pos; lra). lra. }
    assert (0 <= (e + 16.9 * B) * u) by (apply Rmult_le_pos; lra). assert ((e + 16.9 * B) * u <= (e + 16.9 * B) / 0.33 * u * E); [|lra].
    replace ((e + 16.9 * B) / 0.33 * u * E) with ((e + 16.9 * B) * u * (E / 0.33)) by (field; lra). assert (1 <= E / 0.33) by lra. nra. }
  eexists _, _, _. split; [reflexivity|]. cbn [value]. 
  assert (X0 := G c0 k0 1 6.3 c0 (PI * E) ltac:(apply Rabs_le; lra) Q0 ltac:(lra) ltac:(lra)).
  assert (X1 := G c1 k1 2.4 6.2 c1 (PI * E) ltac:(apply Rabs_le; lra) Q1 ltac:(lra) ltac:(lra)).
  assert (X2 := G c2 k2 0.5 0.6 c2 (PI * E) ltac:(apply Rabs_le; lra) Q2 ltac:(lra) ltac:(lra)).
  repeat split; (eapply Rle_trans; [eassumption|]); apply Rmult_le_compat_r; lra.
Qed.

Lemma disk_is : disk_flux u1 u2 = PI * dd.
Proof. rewrite <- norm_value. reflexivity. Qed.
Lemma disk_pos : 0 < disk_flux u1 u2.
Proof. rewrite disk_is. assert (D := dd_range). apply Rmult_lt_0_compat; [apply PI_RGT_0|lra]. Qed.
Lemma PI3 : 3 <= PI.
Proof. assert (A := PI2_3_2). unfold PI2 in A. lra. Qed.

(** one term of the sum *)
Lemma term op x y s' s a q k B C : Rabs (s' - s) <= eps -> Rabs s <= C * PI -> Rabs (PI * a - q) <= k * u -> Rabs q <= B -> 0 <= k -> 0 <= B -> 0 <= C ->
  Rabs (rd op x y (s' * a) - s * q / PI) <= (1.01 * (C * k) + C * B) * u + 1.01 * ((B + k / 100) / 3) * eps.
Proof.
  intros H1 H2 H3 H4 Hk HB HC. assert (P3 := PI3). assert (U' := U). assert (HP := PI_RGT_0).
  assert (R := rdk 1 op x y (s' * a) (s * q / PI) (C * k) ((B + k / 100) / 3) (C * B) (1.01 * (C * k) + C * B) (1.01 * ((B + k / 100) / 3)) ltac:(lra)). rewrite !Rmult_1_l in R.
  assert (A : Rabs a <= (B + k / 100) / 3).
  { assert (T : Rabs (PI * a) <= B + k / 100). { replace (PI * a) with (q + (PI * a - q)) by ring. eapply Rle_trans; [apply Rabs_triang|]. nra. }
    rewrite Rabs_mult, (Rabs_pos_eq PI) in T by lra. assert (G := Rabs_pos a). nra. }
  apply R; try lra; try (apply Rmult_le_pos; lra).
  - replace (s' * a - s * q / PI) with ((s' - s) * a + (s / PI) * (PI * a - q)) by (field; lra). eapply Rle_trans; [apply Rabs_triang|]. rewrite !Rabs_mult.
    assert (S : Rabs (s / PI) <= C). { unfold Rdiv. rewrite Rabs_mult, (Rabs_pos_eq (/ PI)) by (left; apply Rinv_0_lt_compat; lra). apply (Rmult_le_reg_r PI); [lra|]. rewrite Rmult_assoc, Rinv_l by lra. lra. }
    assert (Rabs (s / PI) * Rabs (PI * a - q) <= C * (k * u)) by (apply Rmult_le_compat; try apply Rabs_pos; lra).
    assert (Rabs (s' - s) * Rabs a <= eps * ((B + k / 100) / 3)) by (apply Rmult_le_compat; try apply Rabs_pos; lra). lra.
  - replace (s * q / PI) with (s / PI * q) by (field; lra). rewrite Rabs_mult. apply Rmult_le_compat; try apply Rabs_pos; try lra.
    unfold Rdiv. rewrite Rabs_mult, (Rabs_pos_eq (/ PI)) by (left; apply Rinv_0_lt_compat; lra). apply (Rmult_le_reg_r PI); [lra|]. rewrite Rmult_assoc, Rinv_l by lra. lra.
Qed.

Lemma vis01 b r : 0 <= visible_flux (intensity u1 u2) (Rabs b) (Rabs r) / disk_flux u1 u2 <= 1.
Proof.
  assert (D := disk_pos). assert (B : bright u1 u2). { intros mu Hmu. unfold intensity. set (w := 1 - mu). assert (W : 0 <= w <= 1) by (unfold w; lra). assert (W2 : 0 <= w * w <= w) by nra. destruct (Rle_dec 0 u2); nra. }
  assert (R := bright_range u1 u2 (Rabs b) (Rabs r) B (Rabs_pos b) (Rabs_pos r)).
  split; apply (Rmult_le_reg_r (disk_flux u1 u2)); try lra; unfold Rdiv; rewrite Rmult_assoc, Rinv_l by lra; lra.
Qed.

Lemma quad_machine (F : FluxOp) b r : solves eps F -> exists v, @fquad (rounded_fl rd) F (ld_c (computed_law rd u1 u2)) (Fin b) (Fin r) = Fin v /\
  Rabs (v - (visible_flux (intensity u1 u2) (Rabs b) (Rabs r) / disk_flux u1 u2 - 1)) <= flux_error u eps.
Proof.
  intros [_ HF]. destruct cl_machine as (a0 & a1 & a2 & Ec & K0 & K1 & K2). unfold computed_law, ld_init, ld_c. rewrite Ec. unfold fquad, flux_op.
  destruct (HF basis0 ltac:(left; reflexivity) b r) as (s0 & -> & E0). destruct (HF basis1 ltac:(right; left; reflexivity) b r) as (s1 & -> & E1). destruct (HF basis2 ltac:(right; right; left; reflexivity) b r) as (s2 & -> & E2).
  cbn [nlit nadd nsub nmul rounded_fl]. unfold fsub. cbn [rnd fadd fneg fmul value]. eexists. split; [reflexivity|].
  assert (U' := U). assert (HP := PI_RGT_0). assert (D := dd_range).
  assert (V0 := vis_size basis0 (Rabs b) (Rabs r) 1 basis0_cont (Rabs_pos b) (Rabs_pos r) ltac:(intros; unfold basis0; rewrite Rabs_R1; lra)).
  assert (V1 := vis_size basis1 (Rabs b) (Rabs r) 1 basis1_cont (Rabs_pos b) (Rabs_pos r) ltac:(intros mu Hmu; unfold basis1; apply Rabs_le; lra)).
  assert (V2 := vis_size basis2 (Rabs b) (Rabs r) 2 basis2_cont (Rabs_pos b) (Rabs_pos r) ltac:(intros mu Hmu; unfold basis2; apply Rabs_le; nra)).
  assert (VI := visible_intensity u1 u2 (Rabs b) (Rabs r) (Rabs_pos b) (Rabs_pos r)). fold k0 k1 k2 in VI.
  assert (S01 := vis01 b r). rewrite VI, disk_is in S01 |- *.
  set (t0 := visible_flux basis0 (Rabs b) (Rabs r)) in *. set (t1 := visible_flux basis1 (Rabs b) (Rabs r)) in *. set (t2 := visible_flux basis2 (Rabs b) (Rabs r)) in *. clearbody t0 t1 t2.
  assert (E : (k0 * t0 + k1 * t1 + k2 * t2) / (PI * dd) = t0 * (k0 / dd) / PI + t1 * (k1 / dd) / PI + t2 * (k2 / dd) / PI) by (field; repeat split; lra).
  rewrite E in S01 |- *. destruct q_range as (Q0 & Q1 & Q2).
  assert (T0 := term OMul s0 a0 s0 t0 a0 (k0 / dd) 73 1 1 E0 V0 K0 Q0 ltac:(lra) ltac:(lra) ltac:(lra)).
  assert (T1 := term OMul s1 a1 s1 t1 a1 (k1 / dd) 146 2.4 1 E1 V1 K1 Q1 ltac:(lra) ltac:(lra) ltac:(lra)).
  assert (T2 := term OMul s2 a2 s2 t2 a2 (k2 / dd) 29 0.5 2 E2 V2 K2 Q2 ltac:(lra) ltac:(lra) ltac:(lra)).
  assert (B0 : Rabs (t0 * (k0 / dd) / PI) <= 1). { replace (t0 * (k0 / dd) / PI) with (t0 / PI * (k0 / dd)) by (field; lra). rewrite Rabs_mult. replace 1 with (1 * 1) by ring. apply Rmult_le_compat; try apply Rabs_pos; [|exact Q0].
    unfold Rdiv. rewrite Rabs_mult, (Rabs_pos_eq (/ PI)) by (left; apply Rinv_0_lt_compat; lra). apply (Rmult_le_reg_r PI); [lra|]. rewrite Rmult_assoc, Rinv_l by lra. lra. }
  assert (B1 : Rabs (t1 * (k1 / dd) / PI) <= 2.4). { replace (t1 * (k1 / dd) / PI) with (t1 / PI * (k1 / dd)) by (field; lra). rewrite Rabs_mult. replace 2.4 with (1 * 2.4) by lra. apply Rmult_le_compat; try apply Rabs_pos; [|exact Q1].
    unfold Rdiv. rewrite Rabs_mult, (Rabs_pos_eq (/ PI)) by (left; apply Rinv_0_lt_compat; lra). apply (Rmult_le_reg_r PI); [lra|]. rewrite Rmult_assoc, Rinv_l by lra. lra. }
  set (z0 := t0 * (k0 / dd) / PI) in *. set (z1 := t1 * (k1 / dd) / PI) in *. set (z2 := t2 * (k2 / dd) / PI) in *. clearbody z0 z1 z2.
  set (m0 := rd OMul s0 a0 (s0 * a0)) in *. set (m1 := rd OMul s1 a1 (s1 * a1)) in *. set (m2 := rd OMul s2 a2 (s2 * a2)) in *. clearbody m0 m1 m2.
  clear - Acc He T0 T1 T2 B0 B1 S01 U' u U. apply abs_in in T0. apply abs_in in T1. apply abs_in in T2. apply abs_in in B0. apply abs_in in B1.
  set (m01 := rd OAdd m0 m1 (m0 + m1)). assert (A01 : Rabs (m01 - (z0 + z1)) <= 231 * u + 2 * eps).
  { assert (R := rdk 1 OAdd m0 m1 (m0 + m1) (z0 + z1) 225 1.94 3.4 231 2 ltac:(lra)). rewrite !Rmult_1_l in R. apply R; try lra; apply Rabs_le; lra. }
  clearbody m01. apply abs_in in A01.
  set (m := rd OAdd m01 m2 (m01 + m2)). assert (A2 : Rabs (m - (z0 + z1 + z2)) <= 294.7 * u + 2.4 * eps).
  { assert (R := rdk 1 OAdd m01 m2 (m01 + m2) (z0 + z1 + z2) 290.7 2.3 1 294.7 2.4 ltac:(lra)). rewrite !Rmult_1_l in R. apply R; try lra; apply Rabs_le; lra. }
  clearbody m. apply abs_in in A2. assert (L1 := lit_u 1). rewrite Rabs_R1 in L1. set (l1 := rd OLit 1 0 1) in *. clearbody l1. apply abs_in in L1.
  unfold flux_error. assert (R := rdk 1 OSub m l1 (m + - l1) (z0 + z1 + z2 - 1) 295.7 2.4 1 300 3 ltac:(lra)). rewrite !Rmult_1_l in R. apply R; try lra; apply Rabs_le; lra.
Qed.
End V.
