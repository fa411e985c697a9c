(** * Proofs: rounding errors in the formulas of the distributions *)
From Coq Require Import Reals Lra Lia Psatz Bool List.
From Verif Require Import Num CoreOps Inst M_units M_kepler Spec_float Spec_float2 Spec_float3 Spec_float4 L_real L_kepop L_float L_float2 L_float3 L_float4.
Open Scope R_scope.

Section V.
Variable u : R.
Variable rd : rounder.
Hypothesis Acc : accurate u rd.
Let v := u / (1 - u).
Let U := proj1 Acc.
Ltac aps := lazymatch goal with
  | |- ap _ _ (rd _ _ _ _) _ => eapply (rd_ap u rd Acc); aps
  | |- ap _ _ (_ * _) _ => eapply (ap_mul u); aps
  | |- ap _ _ (_ / _) _ => eapply (ap_div u); aps
  | |- _ => apply (ap_refl u)
  end.
Lemma abs_in (x b : R) : Rabs x <= b -> - b <= x <= b.
Proof. intro H. unfold Rabs in H. destruct (Rcase_abs x); lra. Qed.
Lemma rel_u n c x y : ap v n x y -> 0 <= n <= 10.9 -> 1.137 * n <= c -> Rabs (x - y) <= c * u * Rabs y.
Proof.
  intros H Hn Hc. destruct (v_u u rd Acc) as (A & B & C). fold v in B, C. assert (U' := U).
  assert (V : v <= 1 / 99) by lra. assert (L : n * v <= 1 / 9) by nra.
  assert (K := close_ap u n x y H L). fold v in K. eapply Rle_trans; [exact K|]. apply Rmult_le_compat_r; [apply Rabs_pos|]. assert (n * v <= n * (100 / 99 * u)) by (apply Rmult_le_compat_l; lra). nra.
Qed.

(** s (1 - 2 b) with a rounded s and a rounded 2 b *)
Lemma limb_second n m s s' r T a1 a2 a3 a4 : 0 <= s -> ap v n s' s -> ap v m T r -> 0 <= n <= 3 -> 0 <= m <= 6 ->
  let D := rd OSub a1 a2 (rd OLit 1 0 1 - T) in Rabs (rd OMul a3 a4 (s' * D) - s * (1 - r)) <= (6 + 1.2 * (n + m)) * u * (s * (1 + Rabs r)).
Proof.
  intros Hs HS HT Hn Hm D. assert (U' := U). assert (P := Rabs_pos r).
  assert (ET : Rabs (T - r) <= 1.137 * m * u * Rabs r) by (apply (rel_u m); [exact HT|lra|lra]).
  assert (EL : Rabs (rd OLit 1 0 1 - 1) <= u). { assert (K := proj2 Acc OLit 1 0 1). rewrite (Rabs_pos_eq 1) in K by lra. lra. }
  set (L := rd OLit 1 0 1) in *. set (q := 1 + Rabs r). assert (Q : 1 <= q) by (unfold q; lra).
  assert (Br : - Rabs r <= r <= Rabs r) by (unfold Rabs; destruct (Rcase_abs r); lra). apply abs_in in ET, EL.
  assert (EE : Rabs (L - T - (1 - r)) <= (1 + 1.137 * m) * u * q).
  { apply Rabs_le. unfold q. assert (0 <= u * Rabs r) by nra. assert (0 <= m * u * Rabs r) by (repeat apply Rmult_le_pos; lra). assert (0 <= m * u) by nra. split; nra. }
  assert (mu : 0 <= m * u <= 6 * u) by nra. assert (E0 : (1 + 1.137 * m) * u * q <= 0.079 * q) by nra.
  assert (BT : Rabs (L - T) <= 1.08 * q). { apply abs_in in EE. apply Rabs_le. unfold q in *. lra. }
  assert (ED : Rabs (D - (1 - r)) <= (2.08 + 1.137 * m) * u * q).
  { assert (K := proj2 Acc OSub a1 a2 (L - T)). fold D in K. assert (K2 : Rabs (D - (L - T)) <= u * (1.08 * q)) by (eapply Rle_trans; [exact K|apply Rmult_le_compat_l; lra]).
    replace (D - (1 - r)) with (D - (L - T) + (L - T - (1 - r))) by ring. eapply Rle_trans; [apply Rabs_triang|]. nra. }
  assert (BD : Rabs D <= 1.09 * q). { assert (E1 : (2.08 + 1.137 * m) * u * q <= 0.0891 * q) by nra. apply abs_in in ED. apply Rabs_le. unfold q in *. lra. }
  assert (EX : Rabs (rd OMul a3 a4 (s' * D) - s * D) <= 1.137 * (n + 1) * u * Rabs (s * D)).
  { apply (rel_u (n + 1)); [|lra|lra]. apply (rd_ap u rd Acc). apply (ap_weak u U (n + 0)); [|lra]. apply (ap_mul u); [exact HS|apply (ap_refl u)]. }
  rewrite Rabs_mult, (Rabs_pos_eq s Hs) in EX.
  replace (rd OMul a3 a4 (s' * D) - s * (1 - r)) with (rd OMul a3 a4 (s' * D) - s * D + s * (D - (1 - r))) by ring.
  eapply Rle_trans; [apply Rabs_triang|]. rewrite (Rabs_mult s), (Rabs_pos_eq s Hs).
  assert (F1 : s * Rabs (D - (1 - r)) <= s * ((2.08 + 1.137 * m) * u * q)) by (apply Rmult_le_compat_l; assumption).
  assert (F2 : 1.137 * (n + 1) * u * (s * Rabs D) <= 1.137 * (n + 1) * u * (s * (1.09 * q))). { apply Rmult_le_compat_l; [nra|]. apply Rmult_le_compat_l; assumption. }
  assert (W : 0 <= u * (s * q)) by (repeat apply Rmult_le_pos; lra). set (w := u * (s * q)) in *.
  replace (s * ((2.08 + 1.137 * m) * u * q)) with ((2.08 + 1.137 * m) * w) in F1 by (unfold w; ring).
  replace (1.137 * (n + 1) * u * (s * (1.09 * q))) with (1.137 * 1.09 * (n + 1) * w) in F2 by (unfold w; ring).
  replace ((6 + 1.2 * (n + m)) * u * (s * q)) with ((6 + 1.2 * (n + m)) * w) by (unfold w; ring).
  assert (n * w <= 3 * w) by nra. nra.
Qed.

Section Q.
Variables a b : R.
Hypothesis Ha : 0 <= a.
Let s' := rd OSqrt a 0 (sqrt a).
Let T := rd OMul (rd OLit 2 0 2) b (rd OLit 2 0 2 * b).
Lemma quad_first x y : Rabs (rd OMul x y (s' * T) - sqrt a * (2 * b)) <= 5 * u * Rabs (sqrt a * (2 * b)).
Proof. apply (rel_u 4); [|lra|lra]. unfold s', T. eapply (ap_weak u U); [aps|lra]. Qed.
Lemma quad_second x y x' y' : Rabs (rd OMul x y (s' * rd OSub x' y' (rd OLit 1 0 1 - T)) - sqrt a * (1 - 2 * b)) <= 10 * u * (sqrt a * (1 + 2 * Rabs b)).
Proof.
  assert (K := limb_second 1 2 (sqrt a) s' (2 * b) T x' y' x y (sqrt_pos a)). cbv zeta in K. rewrite (Rabs_mult 2 b), (Rabs_pos_eq 2) in K by lra.
  eapply Rle_trans; [apply K|]. { unfold s'. eapply (ap_weak u U); [aps|lra]. } { unfold T. eapply (ap_weak u U); [aps|lra]. } lra. lra.
  apply Rmult_le_compat_r; [apply Rmult_le_pos; [apply sqrt_pos|assert (P := Rabs_pos b); lra]|]. assert (U' := U). lra.
Qed.
End Q.

(** the formulas of unit_disk *)
Section D.
Hypothesis One : keeps_one rd.
Variables a b : R.
Hypothesis Ha : Rabs a <= 1.
Hypothesis Hb : Rabs b <= 1.
Let Q := rd OMul a a (a * a).
Let D x y := rd OSub x y (1 - Q).
Lemma disk_square : 0 <= Q <= 1 /\ Rabs (Q - a * a) <= u * (a * a).
Proof.
  assert (U' := U). assert (A := abs_in _ _ Ha). assert (S1 : 0 <= a * a <= 1) by nra.
  assert (K := proj2 Acc OMul a a (a * a)). fold Q in K. rewrite (Rabs_pos_eq (a * a)) in K by lra.
  assert (K2 := proj2 One OMul a a (a * a)). fold Q in K2. rewrite (Rabs_pos_eq (a * a)) in K2 by lra. specialize (K2 (proj2 S1)). split; [|exact K]. apply abs_in in K, K2. nra.
Qed.
Lemma disk_arg x y : 0 <= D x y <= 1.
Proof.
  assert (U' := U). destruct disk_square as [Q0 _].
  assert (L := proj2 Acc OSub x y (1 - Q)). fold (D x y) in L. rewrite (Rabs_pos_eq (1 - Q)) in L by lra. apply abs_in in L.
  assert (L2 := proj2 One OSub x y (1 - Q)). fold (D x y) in L2. rewrite (Rabs_pos_eq (1 - Q)) in L2 by lra. specialize (L2 ltac:(lra)). apply abs_in in L2. split; nra.
Qed.
Lemma disk_log x y x' y' x2 y2 : 0 < 1 - a * a -> 2 * u <= 1 - a * a -> let n := rd OSqrt x' y' (sqrt (D x y)) in
  0 < n /\ Rabs (rd OLog x2 y2 (ln n) - ln (sqrt (1 - a * a))) <= u * (Rabs (ln (sqrt (1 - a * a))) + 2 / (1 - a * a)).
Proof.
  intros P0 P1 n. assert (U' := U). destruct disk_square as [Q0 K]. apply abs_in in K. set (z := 1 - a * a) in *.
  assert (AD : ap v 1 (D x y) (1 - Q)). { unfold D. eapply (ap_weak u U); [aps|lra]. }
  assert (AN : ap v 1.5 n (sqrt (1 - Q))). { unfold n. apply (ap_weak u U (1 / 2 + 1)); [|lra]. apply (rd_ap u rd Acc). apply (ap_sqrt u); [lra|exact AD]. }
  assert (A1 : a * a = 1 - z) by (unfold z; ring). rewrite A1 in K. assert (z1 : z <= 1) by (assert (0 <= a * a) by nra; lra).
  assert (IZ : z * / z = 1) by (apply Rinv_r; lra). assert (PZ : 0 < / z) by (apply Rinv_0_lt_compat; lra).
  set (rho := u * / z - u). assert (R0 : 0 <= rho <= 1 / 2). { unfold rho. assert (1 <= / z) by nra. assert (u * / z <= 1 / 2) by nra. nra. }
  assert (RZ : rho * z = u - u * z). { unfold rho. replace ((u * / z - u) * z) with (u * (z * / z) - u * z) by ring. rewrite IZ. ring. }
  assert (Q1 : z * (1 - rho) <= 1 - Q <= z * (1 + rho)) by nra. assert (Q2 : 0 < 1 - Q) by nra.
  assert (LN : forall t, 0 < t -> ln t <= t - 1). { intros t Ht. rewrite <- (exp_ln t Ht) at 2. assert (J := exp_ineq1_le (ln t)). lra. }
  assert (LQ : Rabs (ln (1 - Q) - ln z) <= 2 * rho).
  { set (c := (1 - Q) / z). assert (Ec : 1 - Q = z * c) by (unfold c; field; lra). assert (C0 : 1 - rho <= c <= 1 + rho) by (rewrite Ec in Q1; split; nra).
    rewrite Ec, ln_mult by lra. assert (T1 := LN c ltac:(lra)). assert (T2 := LN (/ c) ltac:(apply Rinv_0_lt_compat; lra)). rewrite ln_Rinv in T2 by lra.
    assert (IC : c * / c = 1) by (apply Rinv_r; lra). assert (PC : 0 < / c) by (apply Rinv_0_lt_compat; lra). assert (/ c - 1 <= 2 * rho) by nra. apply Rabs_le. lra. }
  assert (PS : forall t, 0 < t -> ln (sqrt t) = / 2 * ln t).
  { intros t Ht. assert (S := sqrt_lt_R0 t Ht). rewrite <- (sqrt_sqrt t) at 2 by lra. rewrite ln_mult by assumption. lra. }
  destruct AN as (d & En & Hd). assert (SQ := sqrt_lt_R0 _ Q2). assert (PN : 0 < n) by (rewrite En; apply Rmult_lt_0_compat; [exact SQ|apply exp_pos]). split; [exact PN|].
  assert (LNN : ln n = / 2 * ln (1 - Q) + d). { rewrite En, ln_mult, ln_exp, PS by (try assumption; apply exp_pos). reflexivity. }
  destruct (v_u u rd Acc) as (V1 & V2 & V3). fold v in V2, V3. rewrite (PS z P0). set (L := / 2 * ln z).
  assert (ET : Rabs (ln n - L) <= u * / z + 0.53 * u).
  { rewrite LNN. apply abs_in in LQ, Hd. apply Rabs_le. unfold L, rho in *. split; lra. }
  assert (KL := proj2 Acc OLog x2 y2 (ln n)). replace (rd OLog x2 y2 (ln n) - L) with (rd OLog x2 y2 (ln n) - ln n + (ln n - L)) by ring.
  eapply Rle_trans; [apply Rabs_triang|]. assert (BL : Rabs (ln n) <= Rabs L + Rabs (ln n - L)). { replace (ln n) with (L + (ln n - L)) at 1 by ring. apply Rabs_triang. }
  assert (1 <= / z) by nra. assert (PL := Rabs_pos L). unfold Rdiv. set (y0 := / z) in *. assert (UZ : u <= u * y0) by nra.
  assert (G : u * Rabs (ln n) <= u * (Rabs L + (u * y0 + 0.53 * u))) by (apply Rmult_le_compat_l; lra).
  assert (u * (u * y0 + 0.53 * u) <= 1 / 100 * (u * y0 + 0.53 * u)) by (apply Rmult_le_compat_r; nra). nra.
Qed.
Lemma disk_core x y x' y' x2 y2 : let w := rd OMul x2 y2 (b * rd OSqrt x' y' (sqrt (D x y))) in
  0 <= b * w /\ Rabs (w * w - b * b * (1 - a * a)) <= 7 * u /\ a * a + w * w <= 1 + 7 * u.
Proof.
  intro w. assert (U' := U). assert (A := abs_in _ _ Ha). assert (B := abs_in _ _ Hb). assert (S1 : 0 <= a * a <= 1) by nra. assert (S2 : 0 <= b * b <= 1) by nra.
  assert (K := proj2 Acc OMul a a (a * a)). fold Q in K. rewrite (Rabs_pos_eq (a * a)) in K by lra.
  assert (K2 := proj2 One OMul a a (a * a)). fold Q in K2. rewrite (Rabs_pos_eq (a * a)) in K2 by lra. specialize (K2 (proj2 S1)). apply abs_in in K, K2.
  assert (Q0 : 0 <= Q <= 1) by nra. destruct (disk_arg x y) as [D0 _].
  assert (AD : ap v 1 (D x y) (1 - Q)). { unfold D. eapply (ap_weak u U); [aps|lra]. }
  assert (AW : ap v 2.5 w (b * sqrt (1 - Q))).
  { unfold w. apply (ap_weak u U (0 + (1 / 2 + 1) + 1)); [|lra]. apply (rd_ap u rd Acc). apply (ap_mul u); [apply (ap_refl u)|]. apply (rd_ap u rd Acc). apply (ap_sqrt u); [lra|exact AD]. }
  assert (AW2 : ap v 5 (w * w) (b * b * (1 - Q))).
  { apply (ap_eq u 5 (w * w) (b * sqrt (1 - Q) * (b * sqrt (1 - Q)))); [|reflexivity|].
    - apply (ap_weak u U (2.5 + 2.5)); [|lra]. apply (ap_mul u); exact AW.
    - replace (b * sqrt (1 - Q) * (b * sqrt (1 - Q))) with (b * b * (sqrt (1 - Q) * sqrt (1 - Q))) by ring. rewrite sqrt_sqrt by lra. reflexivity. }
  assert (E1 := rel_u 5 5.7 _ _ AW2 ltac:(lra) ltac:(lra)). assert (G : 0 <= b * b * (1 - Q) <= 1) by (split; [apply Rmult_le_pos; lra|nra]).
  rewrite (Rabs_pos_eq (b * b * (1 - Q))) in E1 by lra. apply abs_in in E1.
  assert (E2 : - u <= b * b * (1 - Q) - b * b * (1 - a * a) <= u). { replace (b * b * (1 - Q) - b * b * (1 - a * a)) with (b * b * (a * a - Q)) by ring. assert (- u <= a * a - Q <= u) by nra. nra. }
  assert (E3 : 5.7 * u * (b * b * (1 - Q)) <= 5.7 * u) by nra.
  assert (E : Rabs (w * w - b * b * (1 - a * a)) <= 7 * u) by (apply Rabs_le; lra).
  split; [|split; [exact E|]].
  - destruct AW as (d & Ew & _). rewrite Ew. replace (b * (b * sqrt (1 - Q) * exp d)) with (b * b * (sqrt (1 - Q) * exp d)) by ring.
    apply Rmult_le_pos; [lra|]. apply Rmult_le_pos; [apply sqrt_pos|left; apply exp_pos].
  - apply abs_in in E. assert (b * b * (1 - a * a) <= 1 - a * a) by nra. lra.
Qed.
End D.

(** a rounded direction *)
Lemma turn_core x1 x2 y z : x1 * x1 + x2 * x2 <> 0 -> let th := rd OAtan2 y z (Ratan2 x1 x2) in
  Rabs th <= PI * (1 + u) /\ Rabs (th - Ratan2 x1 x2) <= u * Rabs (Ratan2 x1 x2).
Proof.
  intros N th. assert (U' := U). assert (B := Ratan2_bounds x1 x2). assert (K := proj2 Acc OAtan2 y z (Ratan2 x1 x2)). fold th in K. split; [|exact K].
  assert (A : Rabs (Ratan2 x1 x2) <= PI) by (apply Rabs_le; lra). replace th with (Ratan2 x1 x2 + (th - Ratan2 x1 x2)) by ring.
  eapply Rle_trans; [apply Rabs_triang|]. assert (P := Rabs_pos (Ratan2 x1 x2)). nra.
Qed.
Lemma turn_start t x y x' y' z z' : let x1 := rd OSin x y (sin t) in let x2 := rd OCos x' y' (cos t) in let th := rd OAtan2 z z' (Ratan2 x1 x2) in
  Rabs (sin th - sin t) <= 7 * u /\ Rabs (cos th - cos t) <= 7 * u.
Proof.
  intros x1 x2 th. assert (U' := U). assert (K1 := proj2 Acc OSin x y (sin t)). fold x1 in K1. assert (K2 := proj2 Acc OCos x' y' (cos t)). fold x2 in K2.
  assert (SC := sin2_cos2 t). unfold Rsqr in SC. set (s := sin t) in *. set (c := cos t) in *.
  assert (Z : (1 - u) * (1 - u) <= x2 * x2 + x1 * x1 <= (1 + u) * (1 + u)).
  { assert (F : forall g g', Rabs (g' - g) <= u * Rabs g -> (1 - u) * (1 - u) * (g * g) <= g' * g' <= (1 + u) * (1 + u) * (g * g)).
    { intros g g' H. assert (G2 : Rabs g * Rabs g = g * g) by (rewrite <- Rabs_mult, Rabs_pos_eq; [reflexivity|nra]). assert (G2' : Rabs g' * Rabs g' = g' * g') by (rewrite <- Rabs_mult, Rabs_pos_eq; [reflexivity|nra]).
      assert (P := Rabs_pos g). assert (P' := Rabs_pos g').
      assert (T1 : Rabs g' <= (1 + u) * Rabs g). { replace g' with (g + (g' - g)) at 1 by ring. eapply Rle_trans; [apply Rabs_triang|]. lra. }
      assert (T2 : (1 - u) * Rabs g <= Rabs g'). { assert (T := Rabs_triang g' (g - g')). replace (g' + (g - g')) with g in T by ring. rewrite (Rabs_minus_sym g g') in T. lra. }
      rewrite <- G2, <- G2'. assert (0 <= (1 - u) * Rabs g) by nra. split; nra. }
    assert (A1 := F s x1 K1). assert (A2 := F c x2 K2). split; nra. }
  assert (NZ : x2 * x2 + x1 * x1 <> 0) by nra. destruct (Ratan2_polar x1 x2 NZ) as [Ec Es]. set (R := sqrt (x2 * x2 + x1 * x1)) in *.
  assert (RB : 1 - u <= R <= 1 + u). { split; [apply Rsqr_incr_0_var; [|apply sqrt_pos]|apply Rsqr_incr_0_var; [|lra]]; unfold Rsqr, R; rewrite sqrt_sqrt by nra; lra. }
  assert (IR : Rabs (/ R - 1) <= 1.02 * u). { assert (I1 : / R * R = 1) by (apply Rinv_l; lra). assert (0 < / R) by (apply Rinv_0_lt_compat; lra). apply Rabs_le. split; nra. }
  assert (G : forall g g', Rabs g <= 1 -> Rabs (g' - g) <= u * Rabs g -> Rabs (g' / R - g) <= 2.1 * u).
  { intros g g' H1 H. replace (g' / R - g) with (g' * (/ R - 1) + (g' - g)) by (unfold Rdiv; ring). eapply Rle_trans; [apply Rabs_triang|]. rewrite Rabs_mult.
    assert (P := Rabs_pos g). assert (P' := Rabs_pos g'). assert (T1 : Rabs g' <= 1.01). { replace g' with (g + (g' - g)) by ring. eapply Rle_trans; [apply Rabs_triang|]. nra. }
    assert (Rabs g' * Rabs (/ R - 1) <= 1.01 * (1.02 * u)) by (apply Rmult_le_compat; try assumption; apply Rabs_pos). nra. }
  destruct (turn_core x1 x2 z z') as [_ ET]; [lra|]. fold th in ET. assert (TH : Rabs (th - Ratan2 x1 x2) <= 4 * u).
  { eapply Rle_trans; [exact ET|]. assert (B := Ratan2_bounds x1 x2). assert (Rabs (Ratan2 x1 x2) <= PI) by (apply Rabs_le; lra). assert (PB := PI_4). nra. }
  assert (S1 : Rabs s <= 1) by (apply Rabs_le; nra). assert (C1 : Rabs c <= 1) by (apply Rabs_le; nra).
  assert (GS := G s x1 S1 K1). assert (GC := G c x2 C1 K2). rewrite <- Es in GS. rewrite <- Ec in GC.
  assert (LS := sin_lipschitz th (Ratan2 x1 x2)). assert (LC := cos_lip th (Ratan2 x1 x2)).
  split.
  - replace (sin th - s) with (sin th - sin (Ratan2 x1 x2) + (sin (Ratan2 x1 x2) - s)) by ring. eapply Rle_trans; [apply Rabs_triang|]. lra.
  - replace (cos th - c) with (cos th - cos (Ratan2 x1 x2) + (cos (Ratan2 x1 x2) - c)) by ring. eapply Rle_trans; [apply Rabs_triang|]. lra.
Qed.
End V.
