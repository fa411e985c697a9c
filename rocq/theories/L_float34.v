(** * Radius ratio from the transit depth with rounding errors *)
From Coq Require Import Reals Lra Lia Psatz List Bool Arith ZArith.
From Coquelicot Require Import Rcomplements.
From Verif Require Import Num CoreOps Inst CoreFlux M_units M_kepler M_tensor M_limbdark Spec_orbit Spec_array Spec_dist Spec_light Spec_float Spec_float2 Spec_float3 Spec_float5 Spec_float7
  L_real L_fl L_tens L_shape L_reshape L_light1 L_light2 L_light8 L_dist3 L_shapeS L_float L_float2 L_float3 L_float4.
Import ListNotations.
Local Notation length := List.length.
Open Scope R_scope.

Section V.
Variable u : R.
Variable rd : rounder.
Hypothesis Acc : accurate u rd.
Let v := u / (1 - u).
Let U := proj1 Acc.

Lemma step op a b y x E B : Rabs (y - x) <= E -> Rabs x <= B -> Rabs (rd op a b y - x) <= E + u * (B + E).
Proof.
  intros H1 H2. assert (K := proj2 Acc op a b y). assert (U' := U). replace (rd op a b y - x) with (rd op a b y - y + (y - x)) by ring.
  assert (Rabs y <= B + E). { replace y with (x + (y - x)) by ring. eapply Rle_trans; [apply Rabs_triang|]. lra. }
  eapply Rle_trans; [apply Rabs_triang|]. assert (u * Rabs y <= u * (B + E)) by (apply Rmult_le_compat_l; lra). lra.
Qed.
Lemma near_ap x y c : 0 < y -> 0 <= c -> c * u <= y / 2 -> Rabs (x - y) <= c * u -> ap v (2 * c / y) x y.
Proof.
  intros Hy Hc Hs H. assert (U' := U). destruct (v_bounds u U) as [V1 V2]. fold v in V1, V2.
  assert (B : - (c * u) <= x - y <= c * u) by (apply Rabs_le_between; exact H). assert (Px : 0 < x) by lra.
  assert (L : forall z, 0 < z -> ln z <= z - 1). { intros z Hz. rewrite <- (exp_ln z Hz) at 2. assert (K := exp_ineq1_le (ln z)). lra. }
  exists (ln (x / y)). assert (Pq : 0 < x / y) by (apply Rdiv_lt_0_compat; assumption). split; [rewrite exp_ln by exact Pq; field; lra|].
  assert (W : 2 * c / y * u <= 2 * c / y * v). { apply Rmult_le_compat_l; [|exact V2]. apply Rdiv_le_0_compat; lra. }
  apply Rle_trans with (2 * c / y * u); [|exact W]. apply Rabs_le. split.
  - assert (K := L (y / x) (Rdiv_lt_0_compat _ _ Hy Px)). rewrite lnq in K |- * by assumption.
    assert (y / x - 1 <= 2 * c / y * u); [|lra]. apply (Rmult_le_reg_r (x * y)); [apply Rmult_lt_0_compat; assumption|].
    replace ((y / x - 1) * (x * y)) with ((y - x) * y) by (field; lra). replace (2 * c / y * u * (x * y)) with (c * u * (2 * x)) by (field; lra).
    apply Rle_trans with (c * u * y); [apply Rmult_le_compat_r; lra|]. apply Rmult_le_compat_l; [apply Rmult_le_pos|]; lra.
  - assert (K := L (x / y) Pq). apply (Rle_trans _ _ _ K). apply (Rmult_le_reg_r y); [assumption|].
    replace ((x / y - 1) * y) with (x - y) by (field; lra). replace (2 * c / y * u * y) with (2 * (c * u)) by (field; lra). assert (0 <= c * u) by (apply Rmult_le_pos; lra). lra.
Qed.

Section Q.
Variables u1 u2 d b : R.
Hypothesis Hlaw : physical_law (intensity u1 u2).
Hypothesis Hd : 0 < d.
Let mu := sqrt (1 - b * b).
Let f := intensity u1 u2 mu.
Hypothesis Hb : Rabs b < 1.
Hypothesis Hf : 0 < f.
Hypothesis S1 : 4 * u <= mu * mu.
Hypothesis S2 : 160 * u <= mu * f.

Definition rl (x : R) : R := rd OLit x 0 x.
Let q := rd OMul b b (b * b).
Let p := rd OSub (rl 1) q (rl 1 - q).
Let s := rd OSqrt p 0 (sqrt p).
Let g := rd OSub (rl 1) s (rl 1 - s).
Let t1 := rd OMul u1 g (u1 * g).
Let w1 := rd OSub (rl 1) t1 (rl 1 - t1).
Let g2 := rd OMul g g (g * g).
Let t2 := rd OMul u2 g2 (u2 * g2).
Let f' := rd OSub w1 t2 (w1 - t2).
Let h1 := rd OMul (rl 2) u1 (rl 2 * u1).
Let h2 := rd ODiv h1 (rl 6) (h1 / rl 6).
Let h3 := rd OSub (rl 1) h2 (rl 1 - h2).
Let h4 := rd OMul (rl 2) u2 (rl 2 * u2).
Let h5 := rd ODiv h4 (rl 12) (h4 / rl 12).
Let F0 := rd OSub h3 h5 (h3 - h5).
Let fac := rd ODiv F0 f' (F0 / f').
Let m := rd OMul d fac (d * fac).
Definition ror' := rd OSqrt m 0 (sqrt m).
Let j1 := rd OMul (rl 0.5) fac (rl 0.5 * fac).
Definition jac' := rd ODiv j1 ror' (j1 / ror').

Lemma us : 0 <= u1 <= 2 /\ -1 <= u2 <= 1.
Proof. destruct (proj1 (law_iff u1 u2) Hlaw) as (A & B & C). lra. Qed.
Lemma mus : 0 < mu <= 1 /\ mu * mu = 1 - b * b.
Proof.
  apply Rabs_def2 in Hb. assert (B : 0 < 1 - b * b) by nra. assert (E : mu * mu = 1 - b * b) by (apply sqrt_sqrt; lra). assert (P : 0 < mu) by (apply sqrt_lt_R0, B).
  split; [|exact E]. split; [exact P|]. nra.
Qed.
Lemma l1 : Rabs (rl 1 - 1) <= u.
Proof. assert (K := proj2 Acc OLit 1 0 1). rewrite (Rabs_pos_eq 1) in K by lra. unfold rl. lra. Qed.
Let h := u / mu.
Lemma hs : 0 <= h /\ u <= h /\ h <= mu / 4 /\ h * mu = u /\ 160 * h <= f.
Proof.
  destruct mus as [[M1 M2] E]. assert (U' := U). assert (Eh : h * mu = u) by (unfold h; field; lra). assert (P : 0 <= h) by (unfold h; apply Rdiv_le_0_compat; lra).
  split; [exact P|]. split; [nra|]. split; [|split; [exact Eh|]].
  - apply (Rmult_le_reg_r mu); [exact M1|]. lra.
  - apply (Rmult_le_reg_r mu); [exact M1|]. lra.
Qed.
Lemma p_close : 0 <= p /\ Rabs (sqrt p - mu) <= 3.1 * h.
Proof.
  destruct mus as [[M1 M2] E]. destruct hs as (A1 & A2 & A3 & A4 & _). assert (U' := U). assert (L := l1).
  assert (B2 : 0 <= b * b <= 1) by nra.
  assert (Kq : Rabs (q - b * b) <= u). { assert (K := proj2 Acc OMul b b (b * b)). rewrite (Rabs_pos_eq (b * b)) in K by lra. fold q in K. nra. }
  assert (Kp : Rabs (p - mu * mu) <= 2 * u + u * (1 + 2 * u)).
  { unfold p. apply step; [|rewrite Rabs_pos_eq by nra; nra]. apply Rabs_le_between in L, Kq. apply Rabs_le. lra. }
  assert (Kp' : Rabs (p - mu * mu) <= 3.1 * u) by nra.
  assert (Pp : 0 <= p) by (apply Rabs_le_between in Kp'; lra). split; [exact Pp|].
  assert (Q := sqrt_pos p). assert (Eq := sqrt_sqrt p Pp). set (r := sqrt p) in *. clearbody r.
  apply (Rmult_le_reg_r mu); [exact M1|]. replace (3.1 * h * mu) with (3.1 * u) by (rewrite <- A4; ring).
  apply Rle_trans with (Rabs (r - mu) * (r + mu)); [apply Rmult_le_compat_l; [apply Rabs_pos|lra]|].
  rewrite <- (Rabs_pos_eq (r + mu)) by lra. rewrite <- Rabs_mult. replace ((r - mu) * (r + mu)) with (p - mu * mu) by (rewrite <- Eq; ring). exact Kp'.
Qed.
Lemma g_close : Rabs (g - (1 - mu)) <= 7.7 * h /\ Rabs g <= 1.93.
Proof.
  destruct mus as [[M1 M2] E]. destruct hs as (A1 & A2 & A3 & A4 & _). assert (U' := U). assert (L := l1). destruct p_close as [P K].
  assert (Ks : Rabs (s - mu) <= 3.1 * h + u * (1 + 3.1 * h)) by (unfold s; apply step; [exact K|rewrite Rabs_pos_eq; lra]).
  assert (Ks' : Rabs (s - mu) <= 5 * h) by nra.
  assert (Kg : Rabs (g - (1 - mu)) <= (u + 5 * h) + u * ((1 - mu) + (u + 5 * h))).
  { unfold g. apply step; [|rewrite Rabs_pos_eq; lra]. apply Rabs_le_between in L, Ks'. apply Rabs_le. lra. }
  assert (Kg' : Rabs (g - (1 - mu)) <= 7.7 * h) by nra. split; [exact Kg'|]. apply Rabs_le_between in Kg'. apply Rabs_le. lra.
Qed.
Lemma f_close : Rabs (f' - f) <= 80 * h.
Proof.
  destruct mus as [[M1 M2] E]. destruct hs as (A1 & A2 & A3 & A4 & _). assert (U' := U). assert (L := l1). destruct g_close as [Kg Bg]. destruct us as [B1 B2].
  set (a := 1 - mu) in *. assert (Ha : 0 <= a < 1) by (unfold a; lra).
  assert (Fe : f = 1 - u1 * a - u2 * (a * a)) by (unfold f, intensity, a; ring).
  assert (h4' : h <= 1 / 4) by lra.
  assert (Ka : Rabs (u1 * g - u1 * a) <= 15.4 * h). { rewrite <- Rmult_minus_distr_l, Rabs_mult, (Rabs_pos_eq u1) by lra. assert (0 <= Rabs (g - a)) by apply Rabs_pos. nra. }
  assert (K1 : Rabs (t1 - u1 * a) <= 15.4 * h + u * (2 + 15.4 * h)) by (unfold t1; apply step; [exact Ka|rewrite Rabs_pos_eq; nra]).
  assert (K1' : Rabs (t1 - u1 * a) <= 18 * h) by nra.
  assert (Kw : Rabs (w1 - (1 - u1 * a)) <= (u + 18 * h) + u * (3 + (u + 18 * h))).
  { unfold w1. apply step; [apply Rabs_le_between in L, K1'; apply Rabs_le; lra|]. apply Rabs_le. nra. }
  assert (Kw' : Rabs (w1 - (1 - u1 * a)) <= 23 * h) by nra.
  assert (Kb : Rabs (g * g - a * a) <= 23 * h).
  { replace (g * g - a * a) with ((g - a) * (g + a)) by ring. rewrite Rabs_mult. assert (Rabs (g + a) <= 2.93) by (eapply Rle_trans; [apply Rabs_triang|rewrite (Rabs_pos_eq a) by lra; lra]).
    assert (0 <= Rabs (g - a)) by apply Rabs_pos. assert (0 <= Rabs (g + a)) by apply Rabs_pos. nra. }
  assert (K2 : Rabs (g2 - a * a) <= 23 * h + u * (1 + 23 * h)) by (unfold g2; apply step; [exact Kb|rewrite Rabs_pos_eq; nra]).
  assert (K2' : Rabs (g2 - a * a) <= 25 * h) by nra.
  assert (Bu : Rabs u2 <= 1) by (apply Rabs_le; lra). assert (Pu := Rabs_pos u2).
  assert (Kc : Rabs (u2 * g2 - u2 * (a * a)) <= 25 * h). { rewrite <- Rmult_minus_distr_l, Rabs_mult. assert (0 <= Rabs (g2 - a * a)) by apply Rabs_pos. nra. }
  assert (Ba : Rabs (u2 * (a * a)) <= 1). { rewrite Rabs_mult, (Rabs_pos_eq (a * a)) by nra. assert (a * a <= 1) by nra. nra. }
  assert (K3 : Rabs (t2 - u2 * (a * a)) <= 25 * h + u * (1 + 25 * h)) by (unfold t2; apply step; [exact Kc|exact Ba]).
  assert (K3' : Rabs (t2 - u2 * (a * a)) <= 27 * h) by nra.
  assert (Kf : Rabs (f' - f) <= 50 * h + u * (4 + 50 * h)).
  { rewrite Fe. unfold f'. apply step; [apply Rabs_le_between in Kw', K3'; apply Rabs_le; lra|]. apply Rabs_le_between in Ba. apply Rabs_le. nra. }
  nra.
Qed.
Lemma f_ap : 0 < f' /\ ap v (160 / (mu * f)) f' f.
Proof.
  destruct mus as [[M1 M2] E]. destruct hs as (A1 & A2 & A3 & A4 & A5). assert (K := f_close). assert (U' := U).
  assert (P : 0 < f') by (apply Rabs_le_between in K; lra). split; [exact P|].
  replace (160 / (mu * f)) with (2 * (80 / mu) / f) by (field; lra). apply near_ap.
  - exact Hf.
  - apply Rdiv_le_0_compat; lra.
  - replace (80 / mu * u) with (80 * h) by (unfold h; field; lra). lra.
  - replace (80 / mu * u) with (80 * h) by (unfold h; field; lra). exact K.
Qed.
Let f0 := 1 - u1 / 3 - u2 / 6.
Lemma f0_low : 1 / 2 <= f0.
Proof. destruct (proj1 (law_iff u1 u2) Hlaw) as (A & B & C). unfold f0. lra. Qed.
Lemma lit_pos x : 0 < x -> 0 < rl x.
Proof. intro Hx. unfold rl. assert (K := proj2 Acc OLit x 0 x). rewrite (Rabs_pos_eq x) in K by lra. apply Rabs_le_between in K. assert (U' := U). nra. Qed.
Lemma lit_ap x : ap v 1 (rl x) x.
Proof. apply (ap_weak u U (0 + 1)); [|lra]. apply (rd_ap u rd Acc). apply (ap_refl u). Qed.
Lemma quot_close c x : 0 < c -> Rabs (rd ODiv (rd OMul (rl 2) x (rl 2 * x)) (rl c) (rd OMul (rl 2) x (rl 2 * x) / rl c) - 2 * x / c) <= 4.6 * u * Rabs (2 * x / c).
Proof.
  intro Hc. assert (A : ap v 4 (rd ODiv (rd OMul (rl 2) x (rl 2 * x)) (rl c) (rd OMul (rl 2) x (rl 2 * x) / rl c)) (2 * x / c)).
  { apply (ap_weak u U (1 + 0 + 1 + 1 + 1)); [|lra]. apply (rd_ap u rd Acc), (ap_div u); [|apply lit_ap]. apply (rd_ap u rd Acc), (ap_mul u); [apply lit_ap|apply (ap_refl u)]. }
  destruct (v_u u rd Acc) as (A1 & A2 & A3). fold v in A2, A3. assert (U' := U). assert (V : v <= 1 / 99) by lra. assert (L : 4 * v <= 1 / 9) by lra.
  assert (K := close_ap u 4 _ _ A L). fold v in K. eapply Rle_trans; [exact K|]. apply Rmult_le_compat_r; [apply Rabs_pos|]. lra.
Qed.
Lemma f0_close : Rabs (F0 - f0) <= 8 * u.
Proof.
  destruct us as [B1 B2]. assert (U' := U). assert (L := l1). assert (K1 := quot_close 6 u1 ltac:(lra)). fold h1 in K1. fold h2 in K1. assert (K2 := quot_close 12 u2 ltac:(lra)). fold h4 in K2. fold h5 in K2.
  assert (Q1 : Rabs (2 * u1 / 6) <= 2 / 3) by (rewrite Rabs_pos_eq; lra). assert (Q2 : Rabs (2 * u2 / 12) <= 1 / 6) by (apply Rabs_le; lra).
  assert (K1' : Rabs (h2 - 2 * u1 / 6) <= 3.1 * u) by nra. assert (K2' : Rabs (h5 - 2 * u2 / 12) <= 0.8 * u) by nra.
  assert (K3 : Rabs (h3 - (1 - u1 / 3)) <= 4.1 * u + u * (1 + 4.1 * u)).
  { unfold h3. apply step; [|rewrite Rabs_pos_eq; lra]. apply Rabs_le_between in L, K1'. apply Rabs_le. lra. }
  assert (K3' : Rabs (h3 - (1 - u1 / 3)) <= 5.2 * u) by nra.
  destruct (proj1 (law_iff u1 u2) Hlaw) as (C1 & C2 & C3).
  assert (K4 : Rabs (F0 - f0) <= 6 * u + u * (7 / 6 + 6 * u)).
  { unfold F0, f0. apply step; [|apply Rabs_le; lra]. apply Rabs_le_between in K3', K2'. apply Rabs_le. lra. }
  nra.
Qed.
Lemma f0_ap : 0 < F0 /\ ap v 32 F0 f0.
Proof.
  assert (K := f0_close). assert (L := f0_low). assert (U' := U). split; [apply Rabs_le_between in K; lra|].
  apply (ap_weak u U (2 * 8 / f0)); [apply near_ap; lra|]. apply (Rmult_le_reg_r f0); [lra|]. replace (2 * 8 / f0 * f0) with 16 by (field; lra). lra.
Qed.

Let n := 160 / (mu * f).
Let w := sqrt (d * (f0 / f)).
Lemma w_pos : 0 < w.
Proof. assert (L := f0_low). apply sqrt_lt_R0, Rmult_lt_0_compat; [exact Hd|]. apply Rdiv_lt_0_compat; lra. Qed.
Lemma fac_ap : 0 < fac /\ ap v (33 + n) fac (f0 / f).
Proof.
  destruct f0_ap as [P1 A1]. destruct f_ap as [P2 A2]. fold n in A2. assert (A : ap v (33 + n) fac (f0 / f)).
  { apply (ap_weak u U (32 + n + 1)); [|lra]. apply (rd_ap u rd Acc), (ap_div u); assumption. }
  split; [|exact A]. apply (proj2 (ap_pos u _ _ _ A)). apply Rdiv_lt_0_compat; [assert (L := f0_low); lra|exact Hf].
Qed.
Lemma m_pos : 0 < m.
Proof.
  destruct fac_ap as [P A]. assert (B : ap v (1 + (33 + n)) m (d * (f0 / f))).
  { apply (ap_weak u U (0 + (33 + n) + 1)); [|lra]. apply (rd_ap u rd Acc), (ap_mul u); [apply (ap_refl u)|exact A]. }
  apply (proj2 (ap_pos u _ _ _ B)). apply Rmult_lt_0_compat; [exact Hd|]. apply Rdiv_lt_0_compat; [assert (L := f0_low); lra|exact Hf].
Qed.
Lemma ror_ap : 0 < ror' /\ ap v (18 + n / 2) ror' w.
Proof.
  destruct fac_ap as [P A]. assert (B : ap v (34 + n) m (d * (f0 / f))).
  { apply (ap_weak u U (0 + (33 + n) + 1)); [|lra]. apply (rd_ap u rd Acc), (ap_mul u); [apply (ap_refl u)|exact A]. }
  assert (C : ap v (18 + n / 2) ror' w).
  { apply (ap_weak u U ((34 + n) / 2 + 1)); [|lra]. apply (rd_ap u rd Acc), (ap_sqrt u); [|exact B].
    apply Rlt_le, Rmult_lt_0_compat; [exact Hd|]. apply Rdiv_lt_0_compat; [assert (L := f0_low); lra|exact Hf]. }
  split; [|exact C]. apply (proj2 (ap_pos u _ _ _ C)), w_pos.
Qed.
Lemma jac_ap : ap v (54 + 3 * (n / 2)) jac' (w / (2 * d)).
Proof.
  destruct fac_ap as [P A]. destruct ror_ap as [P2 A2]. assert (W := w_pos).
  replace (w / (2 * d)) with (0.5 * (f0 / f) / w).
  - apply (ap_weak u U (1 + (33 + n) + 1 + (18 + n / 2) + 1)); [|lra]. apply (rd_ap u rd Acc), (ap_div u); [|exact A2]. apply (rd_ap u rd Acc), (ap_mul u); [apply lit_ap|exact A].
  - assert (L := f0_low). assert (E : w * w = d * (f0 / f)). { apply sqrt_sqrt. apply Rlt_le, Rmult_lt_0_compat; [exact Hd|]. apply Rdiv_lt_0_compat; lra. }
    replace (f0 / f) with (w * w / d) by (rewrite E; field; lra). replace 0.5 with (/ 2) by lra. field. lra.
Qed.
Lemma n_large : 160 <= n.
Proof.
  destruct mus as [[M1 M2] _]. destruct us as [B1 B2]. assert (F1 : f <= 1).
  { destruct (proj1 (law_iff u1 u2) Hlaw) as (C1 & C2 & C3). unfold f, intensity. assert (0 <= 1 - mu < 1) by lra. set (a := 1 - mu) in *. clearbody a.
    assert (E : 2 * (u1 + u2 * a) = (2 - a) * u1 + a * (u1 + 2 * u2)) by ring. assert (0 <= (2 - a) * u1) by (apply Rmult_le_pos; lra). assert (0 <= a * (u1 + 2 * u2)) by (apply Rmult_le_pos; lra).
    assert (0 <= a * (u1 + u2 * a)) by (apply Rmult_le_pos; lra). nra. }
  unfold n. apply (Rmult_le_reg_r (mu * f)); [apply Rmult_lt_0_compat; assumption|]. replace (160 / (mu * f) * (mu * f)) with 160 by (field; lra). nra.
Qed.
Lemma off_n x y c k : 0 < y -> ap v (c + k * (n / 2)) x y -> 0 <= k -> c <= 18 * k -> off x y <= k * (100 * u / (mu * f)).
Proof.
  intros Hy A Hk Hc. assert (O := off_ap u _ _ _ Hy A). fold v in O. assert (N := n_large). destruct (v_u u rd Acc) as (A1 & A2 & A3). fold v in A2, A3. assert (U' := U).
  replace (100 * u / (mu * f)) with (0.625 * n * u) by (unfold n; destruct mus as [[M1 M2] _]; replace 0.625 with (100 / 160) by lra; field; lra).
  assert (c + k * (n / 2) <= k * (0.6125 * n)) by nra. assert (0 <= k * (0.6125 * n)) by (apply Rmult_le_pos; lra).
  apply (Rle_trans _ _ _ O). apply Rle_trans with (k * (0.6125 * n) * v); [apply Rmult_le_compat_r; lra|].
  apply Rle_trans with (k * (0.6125 * n) * (100 / 99 * u)); [apply Rmult_le_compat_l; lra|]. assert (0 <= k * n * u) by (apply Rmult_le_pos; [apply Rmult_le_pos; lra|lra]).
  replace (k * (0.6125 * n) * (100 / 99 * u)) with (0.6125 * 100 / 99 * (k * n * u)) by lra. replace (k * (0.625 * n * u)) with (0.625 * (k * n * u)) by lra. apply Rmult_le_compat_r; lra.
Qed.
Lemma ror_off : off ror' w <= 100 * u / (mu * f) /\ off jac' (w / (2 * d)) <= 3 * (100 * u / (mu * f)).
Proof.
  destruct ror_ap as [P A]. assert (W := w_pos). split.
  - rewrite <- (Rmult_1_l (100 * u / (mu * f))). apply (off_n _ _ 18); [exact W| |lra|lra]. apply (ap_weak u U _ _ _ _ A). lra.
  - apply (off_n _ _ 54); [apply Rdiv_lt_0_compat; lra|exact jac_ap|lra|lra].
Qed.


Local Instance NF : Num fl bool | 0 := rounded_fl rd.
Lemma e_lit x : nlit x = Fin (rl x).
Proof. reflexivity. Qed.
Lemma e_sub x y : nsub (Fin x) (Fin y) = Fin (rd OSub x y (x - y)).
Proof. reflexivity. Qed.
Lemma e_mul x y : nmul (Fin x) (Fin y) = Fin (rd OMul x y (x * y)).
Proof. reflexivity. Qed.
Lemma e_div x y : 0 < y -> ndiv (Fin x) (Fin y) = Fin (rd ODiv x y (x / y)).
Proof. intro H. cbn [ndiv NF rounded_fl fdiv]. rewrite (Reqb_ne y 0) by lra. reflexivity. Qed.
Lemma e_sqrt x : 0 <= x -> nsqrt (Fin x) = Fin (rd OSqrt x 0 (sqrt x)).
Proof. intro H. cbn [nsqrt NF rounded_fl]. rewrite (fl_sqrt x H). reflexivity. Qed.
Lemma e_sq x : npw (Fin x) 2 = Fin (rd OMul x x (x * x)).
Proof. reflexivity. Qed.
Lemma approx_float : approx_ror (Fin u1) (Fin u2) (Fin d) (Fin b) = (Fin ror', Fin jac').
Proof.
  destruct p_close as [Pp _]. destruct f_ap as [Pf _]. destruct ror_ap as [Pr _]. assert (Pm := m_pos). assert (P6 := lit_pos 6 ltac:(lra)). assert (P12 := lit_pos 12 ltac:(lra)).
  unfold approx_ror. cbv zeta. rewrite !e_lit, !e_sq. fold q. rewrite (e_sub _ q). fold p. rewrite (e_sqrt p Pp). fold s. rewrite (e_sub _ s). fold g. rewrite !e_sq. fold g2. rewrite (e_mul u1 g). fold t1. rewrite (e_sub _ t1). fold w1.
  rewrite (e_mul u2 g2). fold t2. rewrite (e_sub w1 t2). fold f'. rewrite (e_mul (rl 2) u1), (e_mul (rl 2) u2). fold h1 h4. rewrite (e_div h1 _ P6), (e_div h4 _ P12). fold h2 h5. rewrite (e_sub _ h2). fold h3. rewrite (e_sub h3). fold F0.
  rewrite (e_div F0 f' Pf). fold fac. rewrite !e_mul. fold m j1. rewrite (e_sqrt m (Rlt_le _ _ Pm)). fold ror'. rewrite (e_div j1 ror' Pr). reflexivity.
Qed.
End Q.
End V.

Lemma r_l s : bcr (Ok []) (Ok s) = Ok s.
Proof. destruct s; reflexivity. Qed.
Lemma r_r s : bcr (Ok s) (Ok []) = Ok s.
Proof. cbn [bcr]. rewrite bc_nil. reflexivity. Qed.
Lemma r_s s : bcr (Ok s) (Ok s) = Ok s.
Proof. cbn [bcr]. rewrite bc_refl. reflexivity. Qed.
Lemma let_pair (P : tens * tens) sh (jac : bool) : (let '(r, d) := P in (areshape sh r, if jac then Some (areshape sh d) else None)) = (areshape sh (fst P), if jac then Some (areshape sh (snd P)) else None).
Proof. destruct P. reflexivity. Qed.
Lemma ror_float : forall u rd, accurate u rd -> forall u1 u2, physical_law (intensity u1 u2) -> forall (delta b : tens) s i d bb,
  twf delta -> twf b -> (ash delta = Ok s \/ ash delta = Ok []) -> ash b = Ok s -> inside s i -> aget delta i = Fin d -> aget b i = Fin bb ->
  0 < d -> Rabs bb < 1 -> off_limb u u1 u2 bb ->
  exists R J v v' w, computed_ror rd u1 u2 delta b true = (R, Some J) /\ computed_ror rd u1 u2 delta b false = (R, None) /\
    ash R = Ok s /\ ash J = Ok s /\ aget R i = Fin v /\ aget J i = Fin v' /\ 0 < v /\ 0 < v' /\ 0 < w /\ depth u1 u2 bb w = d /\
    off v w <= limb_error u u1 u2 bb /\ off v' (w / (2 * d)) <= 3 * limb_error u u1 u2 bb.
Proof.
  intros u rd Acc u1 u2 HL delta b s i d bb Wd Wb Sd Sb Hi Vd Vb Hd Hb (HI & H1 & H2). assert (Hpi := PI_RGT_0).
  assert (AF : @approx_ror fl bool (rounded_fl rd) (Fin u1) (Fin u2) (Fin d) (Fin bb) = (Fin (ror' rd u1 u2 d bb), Fin (jac' rd u1 u2 d bb))) by exact (approx_float u rd Acc u1 u2 d bb HL Hd Hb HI H1 H2). destruct (ror_off u rd Acc u1 u2 d bb HL Hd Hb HI H1 H2) as [O1 O2]. assert (W := w_pos u1 u2 d bb HL Hd HI).
  set (A := @approx_ror tens btens (rounded_tens rd) (alit (Fin u1)) (alit (Fin u2)) delta b).
  assert (SA : ash (fst A) = Ok s /\ ash (snd A) = Ok s).
  { unfold A, approx_ror. cbn [fst snd nlit rounded_tens nsub nmul ndiv npw nsqrt amap amap2 alit ash]. rewrite Sb. destruct Sd as [E|E]; rewrite E; repeat (first [rewrite r_l|rewrite r_r|rewrite r_s]); split; reflexivity. }
  assert (VA : forall j, (aget (fst A) j, aget (snd A) j) = @approx_ror fl bool (rounded_fl rd) (Fin u1) (Fin u2) (aget delta j) (aget b j)).
  { intro j. unfold A, approx_ror. cbn [fst snd nlit rounded_tens nsub nmul ndiv npw nsqrt amap amap2 alit aget]. reflexivity. }
  set (j := unlin s (lin s i)). assert (Ej : forall k, (k < length s)%nat -> j k = i k) by (apply unlin_lin, Hi).
  assert (Ed : aget delta j = Fin d). { rewrite <- Vd. destruct Sd as [E|E]; apply (Wd _ E); intros q Hq.
    - apply Ej. destruct (le_lt_dec (length s) q); [rewrite nth_overflow in Hq by assumption; contradiction|assumption].
    - destruct q; cbn in Hq; contradiction. }
  assert (Eb : aget b j = Fin bb). { rewrite <- Vb. apply (Wb _ Sb). intros q Hq. apply Ej. destruct (le_lt_dec (length s) q); [rewrite nth_overflow in Hq by assumption; contradiction|assumption]. }
  specialize (VA j). rewrite Ed, Eb, AF in VA.
  exists (areshape (ash b) (fst A)), (areshape (ash b) (snd A)), (ror' rd u1 u2 d bb), (jac' rd u1 u2 d bb). eexists.
  assert (EG : forall jac, computed_ror rd u1 u2 delta b jac = (areshape (ash b) (fst A), if jac then Some (areshape (ash b) (snd A)) else None)).
  { intro jac. exact (let_pair A (ash b) jac). }
  split; [apply EG|]. split; [apply EG|]. rewrite Sb. split; [apply (reshape_sh (fst A) s s (proj1 SA) eq_refl)|]. split; [apply (reshape_sh (snd A) s s (proj2 SA) eq_refl)|].
  split. { rewrite (reshape_at (fst A) s s i (proj1 SA)). unfold flat. rewrite (proj1 SA). fold j. apply (f_equal fst) in VA. exact VA. }
  split. { rewrite (reshape_at (snd A) s s i (proj2 SA)). unfold flat. rewrite (proj2 SA). fold j. apply (f_equal snd) in VA. exact VA. }
  split; [exact (proj1 (ror_ap u rd Acc u1 u2 d bb HL Hd Hb HI H1 H2))|].
  split. { apply (proj2 (ap_pos u _ _ _ (jac_ap u rd Acc u1 u2 d bb HL Hd Hb HI H1 H2))). apply Rdiv_lt_0_compat; [exact W|lra]. }
  split; [exact W|]. split; [|split; [exact O1|exact O2]].
  unfold depth. rewrite disk_value. assert (L := f0_low u1 u2 HL). set (f := intensity u1 u2 (sqrt (1 - bb * bb))) in *. set (f0 := 1 - u1 / 3 - u2 / 6) in *.
  rewrite sqrt_sqrt. 2:{ apply Rlt_le, Rmult_lt_0_compat; [exact Hd|]. apply Rdiv_lt_0_compat; [lra|exact HI]. }
  assert (Pf : 0 < f) by exact HI. assert (P0 : 0 < f0) by lra. clear - Pf P0 Hpi Hd. clearbody f f0. field. repeat split; lra.
Qed.
