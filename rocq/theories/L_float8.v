(** * Rounding errors in SimpleTransitOrbit: speeds and tolerances *)
From Coq Require Import Reals Lra Lia Psatz Bool List ZArith.
From Verif Require Import Num CoreOps Inst M_units M_kepler M_simple Spec_orbit Spec_params Spec_simple Spec_float Spec_float2 L_real L_float L_float2 L_float3 L_float7.
Open Scope R_scope.

Section V.
Variable u : R.
Variable rd : rounder.
Hypothesis Acc : accurate u rd.
Let v := u / (1 - u).
Let U := proj1 Acc.
Ltac simF := cbn [nlit nadd nsub nmul ndiv nneg nsqrt nsin ncos nasin nacos natan2 nexp nlog
  nabs nfloor nmod npowr nkepler_sin nkepler_cos nzl npadr nsqz nlt nle nband nsw rounded npw] in *.

Lemma ap_rel e n x y : 0 < y -> Rabs (x - y) <= e * y -> 0 <= e < 1 -> e <= (1 - e) * (n * v) -> ap v n x y.
Proof.
  intros Hy H He L. apply abs_split in H. assert (Px : 0 < x) by nra. exists (ln (x / y)). assert (Q : 0 < x / y) by (apply Rdiv_lt_0_compat; assumption).
  split; [rewrite exp_ln by exact Q; field; lra|]. set (z := x / y) in *. assert (Z1 : z <= 1 + e). { apply (Rmult_le_reg_r y); [exact Hy|]. unfold z, Rdiv. rewrite Rmult_assoc, Rinv_l by lra. lra. }
  assert (Z2 : 1 - e <= z). { apply (Rmult_le_reg_r y); [exact Hy|]. unfold z, Rdiv. rewrite Rmult_assoc, Rinv_l by lra. lra. }
  assert (N : e <= n * v) by nra. apply Rabs_le. split.
  - assert (K := exp_ineq1_le (- ln z)). rewrite exp_Ropp, exp_ln in K by exact Q. assert (I : / z * z = 1) by (apply Rinv_l; lra). assert (Iz : 0 < / z) by (apply Rinv_0_lt_compat; exact Q).
    assert (I2 : / z - 1 <= n * v); [|lra]. apply (Rmult_le_reg_r z); [exact Q|]. rewrite Rmult_minus_distr_r, I. nra.
  - assert (K := exp_ineq1_le (ln z)). rewrite exp_ln in K by exact Q. lra.
Qed.
(** a difference of squares *)
Lemma v_u' : 0 <= u /\ 0 <= v /\ 99 * v <= 100 * u.
Proof. apply (v_u u rd Acc). Qed.
Lemma grazing_ge A B : 0 < A -> Rabs B < A -> 0 < A * A - B * B /\ 1 <= grazing A B.
Proof.
  intros HA HB. assert (D : 0 < A * A - B * B). { apply Rabs_def2 in HB. nra. } split; [exact D|].
  unfold grazing. apply (Rmult_le_reg_r (A * A - B * B)); [exact D|]. unfold Rdiv. rewrite Rmult_assoc, Rinv_l by lra. nra.
Qed.
Lemma diff_squares n m A B X Y : 0 < A -> Rabs B < A -> ap v n X (A * A) -> ap v m Y (B * B) -> 0 <= n <= 5 -> 0 <= m <= 5 -> u * grazing A B <= 1 / 200 ->
  ap v (1.2 * (n + m) * grazing A B) (X - Y) (A * A - B * B).
Proof.
  intros HA HB HX HY Hn Hm HG. destruct (grazing_ge A B HA HB) as [D G]. destruct v_u' as (V1 & V2 & V3). assert (U' := U).
  set (g := grazing A B) in *. assert (E : A * A = g * (A * A - B * B)) by (unfold g, grazing; field; lra).
  assert (vs : v <= 1 / 99) by lra.
  assert (CX := close_ap u n X _ HX ltac:(fold v; nra)). assert (CY := close_ap u m Y _ HY ltac:(fold v; nra)). fold v in CX, CY.
  rewrite (Rabs_pos_eq (A * A)) in CX by nra. rewrite (Rabs_pos_eq (B * B)) in CY by nra. apply abs_split in CX. apply abs_split in CY.
  assert (VG : v * g <= 1.0102 / 200) by nra. assert (VG0 : 0 <= v * g) by nra.
  apply (ap_rel (9 / 8 * (n + m) * (v * g))).
  - exact D.
  - set (D' := A * A - B * B) in *. replace (9 / 8 * (n + m) * (v * g) * D') with (9 / 8 * (n + m) * v * (A * A)) by (rewrite E; ring).
    assert (BA : B * B <= A * A) by (unfold D' in D; lra). assert (0 <= 9 / 8 * (m * v)) by nra.
    assert (9 / 8 * (m * v) * (B * B) <= 9 / 8 * (m * v) * (A * A)) by (apply Rmult_le_compat_l; assumption). unfold D'. apply Rabs_le. lra.
  - assert (0 <= (n + m) * (v * g) <= 10 * (1.0102 / 200)). { split; [apply Rmult_le_pos; lra|]. apply Rmult_le_compat; lra. } lra.
  - assert (W : 0 <= (n + m) * (v * g) <= 10 * (1.0102 / 200)). { split; [apply Rmult_le_pos; lra|]. apply Rmult_le_compat; lra. }
    replace (1.2 * (n + m) * g * v) with (1.2 * ((n + m) * (v * g))) by ring. set (w := (n + m) * (v * g)) in *. replace (9 / 8 * (n + m) * (v * g)) with (9 / 8 * w) by (unfold w; ring). nra.
Qed.

Section X.
Variable x : sargs R.
Hypothesis Ok_x : simple_ok x.
Hypothesis Hror : 0 <= dflt 0 (sa_ror x).
Local Notation P := (sa_period x).
Local Notation D := (sa_duration x).
Local Notation b := (dflt 0 (sa_b x)).
Local Notation rs := (dflt 1 (sa_r_star x)).
Local Notation ror := (dflt 0 (sa_ror x)).
Local Notation o := (computed_orbit rd x).
Hypothesis Hb : Rabs b < 1 + ror.
Local Notation g := (grazing (1 + ror) b).
Hypothesis Hg : u * g <= 1 / 200.

Lemma o_b : dflt (rd OLit 0 0 0) (sa_b x) = b. Proof. unfold dflt. destruct (sa_b x); [reflexivity|apply (zero_lit u rd Acc)]. Qed.
Lemma o_ror : dflt (rd OLit 0 0 0) (sa_ror x) = ror. Proof. unfold dflt. destruct (sa_ror x); [reflexivity|apply (zero_lit u rd Acc)]. Qed.
Lemma o_rs : ap v 1 (s_r_star o) rs.
Proof.
  cbn. unfold dflt. destruct (sa_r_star x).
  - apply (ap_weak u U 0); [apply ap_refl|lra].
  - apply (ap_weak u U (0 + 1)); [|lra]. apply (rd_ap u rd Acc). apply ap_refl.
Qed.
Lemma o_b_norm : ap v 2 (s_b_norm o) (b * rs).
Proof.
  change (s_b_norm o) with (rd OMul (dflt (rd OLit 0 0 0) (sa_b x)) (s_r_star o) (dflt (rd OLit 0 0 0) (sa_b x) * s_r_star o)). rewrite o_b.
  apply (ap_weak u U (0 + 1 + 1)); [|lra]. apply (rd_ap u rd Acc). apply (ap_mul u); [apply ap_refl|apply o_rs].
Qed.
Lemma g1 : 0 < (1 + ror) * (1 + ror) - b * b /\ 1 <= g.
Proof. apply grazing_ge; [lra|exact Hb]. Qed.
Lemma chord_pos : 0 < half_chord x.
Proof. unfold half_chord. apply Rmult_lt_0_compat; [apply (so_r_star x Ok_x)|]. apply sqrt_lt_R0. apply g1. Qed.
Lemma o_speed : ap v (11 * g) (s_speed o) (2 * half_chord x / D).
Proof.
  destruct g1 as [G0 G1]. assert (U' := U). set (g0 := g) in *.
  set (one := rd OLit 1 0 1). set (two := rd OLit 2 0 2). set (s := rd OAdd one ror (one + ror)). set (s2 := rd OMul s s (s * s)). set (b2 := rd OMul b b (b * b)).
  set (df := rd OSub s2 b2 (s2 - b2)). set (r := s_r_star o). set (r2 := rd OMul r r (r * r)). set (X := rd OMul r2 df (r2 * df)). set (q := rd OSqrt X 0 (sqrt X)).
  set (n := rd OMul two q (two * q)).
  assert (E : s_speed o = rd ODiv n D (n / D)). { unfold n, q, X, df, s2, s, b2, one, two. rewrite <- o_b, <- o_ror. reflexivity. }
  assert (A1 : ap v 1 one 1). { apply (ap_weak u U (0 + 1)); [|lra]. apply (rd_ap u rd Acc). apply ap_refl. }
  assert (A2 : ap v 1 two 2). { apply (ap_weak u U (0 + 1)); [|lra]. apply (rd_ap u rd Acc). apply ap_refl. }
  assert (A3 : ap v 2 s (1 + ror)). { apply (ap_weak u U (1 + 1)); [|lra]. apply (rd_ap u rd Acc). apply (ap_add u); [lra|exact Hror|exact A1|apply (ap_weak u U 0); [apply ap_refl|lra]]. }
  assert (A4 : ap v 5 s2 ((1 + ror) * (1 + ror))). { apply (ap_weak u U (2 + 2 + 1)); [|lra]. apply (rd_ap u rd Acc). apply (ap_mul u); exact A3. }
  assert (A5 : ap v 1 b2 (b * b)). { apply (ap_weak u U (0 + 1)); [|lra]. apply (rd_ap u rd Acc). apply ap_refl. }
  assert (A6 := diff_squares 5 1 (1 + ror) b s2 b2 ltac:(lra) Hb A4 A5 ltac:(lra) ltac:(lra) Hg). fold g0 in A6.
  assert (A7 := rd_ap u rd Acc OSub s2 b2 _ _ _ A6). fold df in A7.
  assert (A8 : ap v 3 r2 (rs * rs)). { apply (ap_weak u U (1 + 1 + 1)); [|lra]. apply (rd_ap u rd Acc). apply (ap_mul u); apply o_rs. }
  assert (A9 := rd_ap u rd Acc OMul r2 df _ _ _ (ap_mul u _ _ _ _ _ _ A8 A7)). fold X in A9.
  assert (R0 := so_r_star x Ok_x).
  assert (A10 := rd_ap u rd Acc OSqrt X 0 _ _ _ (ap_sqrt u _ _ (rs * rs * ((1 + ror) * (1 + ror) - b * b)) ltac:(apply Rmult_le_pos; [nra|lra]) A9)). fold q in A10.
  rewrite sqrt_mult_alt, sqrt_square in A10 by nra. fold (half_chord x) in A10.
  assert (A11 := rd_ap u rd Acc OMul two q _ _ _ (ap_mul u _ _ _ _ _ _ A2 A10)). fold n in A11.
  assert (A12 := rd_ap u rd Acc ODiv n D _ _ _ (ap_div u _ _ _ _ _ _ A11 (ap_refl u D))).
  rewrite E. eapply (ap_weak u U); [exact A12|]. lra.
Qed.
Lemma pos_ok t : exists q : Z, (forall q', Rabs (t - smid x q) <= Rabs (t - smid x q') + 2 * time_error u x t) /\
  Rabs (fst (fst (computed_position rd x t)) - 2 * half_chord x / D * (t - smid x q)) <= 2 * half_chord x / D * (time_error u x t + 8 * u * g * P) /\
  Rabs (snd (fst (computed_position rd x t)) - b * rs) <= 4 * u * Rabs (b * rs).
Proof.
  assert (HP := so_period x Ok_x). assert (HD := so_duration x Ok_x). assert (CP := chord_pos). destruct g1 as [_ G1]. destruct v_u' as (V1 & V2 & V3). assert (U' := U).
  destruct (dt_ok u rd Acc x HP t) as [(q & A) B]. destruct (dt_err u rd Acc x HP t) as (_ & _ & B').
  assert (T0 : 0 <= time_error u x t). { eapply Rle_trans; [apply Rabs_pos|exact A]. }
  set (dt := @simple_dt R bool (rounded rd) o t) in *. set (E := time_error u x t) in *. set (s := 2 * half_chord x / D).
  assert (s0 : 0 < s) by (unfold s; apply Rdiv_lt_0_compat; lra).
  exists q. split; [|split].
  - intro q'. specialize (B q'). assert (K := Rabs_triang (- (dt - (t - smid x q))) dt). replace (- (dt - (t - smid x q)) + dt) with (t - smid x q) in K by ring. rewrite Rabs_Ropp in K. lra.
  - change (fst (fst (computed_position rd x t))) with (rd OMul (s_speed o) dt (s_speed o * dt)).
    assert (X1 := rd_ap u rd Acc OMul (s_speed o) dt _ _ _ (ap_mul u _ _ _ _ _ _ o_speed (ap_refl u dt))). fold s in X1.
    assert (VG : v * g <= 1.0102 / 200) by nra.
    assert (X2 := close_ap u _ _ _ X1 ltac:(fold v; nra)). fold v in X2. set (x' := rd OMul (s_speed o) dt (s_speed o * dt)) in *.
    rewrite Rabs_mult, (Rabs_pos_eq s) in X2 by lra.
    assert (X3 : 9 / 8 * ((11 * g + 0 + 1) * v) <= 13.7 * (u * g)). { assert (v <= 1.0102 * u) by lra. assert (v * g <= 1.0102 * u * g) by (apply Rmult_le_compat_r; lra). nra. }
    assert (X4 : Rabs (x' - s * dt) <= s * (8 * u * g * P)).
    { eapply Rle_trans; [exact X2|]. replace (s * (8 * u * g * P)) with (8 * (u * g) * (s * P)) by ring. assert (0 <= u * g) by nra. assert (u * P <= 0.01 * P) by nra.
      assert (s * Rabs dt <= s * (0.53 * P)) by (apply Rmult_le_compat_l; lra). assert (0 <= s * Rabs dt) by (apply Rmult_le_pos; [lra|apply Rabs_pos]).
      apply Rle_trans with (13.7 * (u * g) * (s * (0.53 * P))); [apply Rmult_le_compat; try assumption|].
      - apply Rmult_le_pos; [lra|]. apply Rmult_le_pos; lra.
      - assert (0 <= u * g * (s * P)) by (apply Rmult_le_pos; [assumption|nra]). lra. }
    replace (x' - s * (t - smid x q)) with (x' - s * dt + s * (dt - (t - smid x q))) by ring. eapply Rle_trans; [apply Rabs_triang|].
    rewrite (Rabs_mult s), (Rabs_pos_eq s) by lra. assert (s * Rabs (dt - (t - smid x q)) <= s * E) by (apply Rmult_le_compat_l; lra). lra.
  - change (snd (fst (computed_position rd x t))) with (rd OAdd (s_b_norm o) 0 (s_b_norm o + 0)). rewrite Rplus_0_r.
    assert (Y1 := rd_ap u rd Acc OAdd (s_b_norm o) 0 _ _ _ o_b_norm). assert (Y2 := close_ap u _ _ _ Y1 ltac:(fold v; lra)). fold v in Y2.
    eapply Rle_trans; [exact Y2|]. apply Rmult_le_compat_r; [apply Rabs_pos|lra].
Qed.

Lemma half_tol a c : Rabs (rd OMul a c (rd OLit 0.5 0 0.5 * D) - D / 2) <= 2 * u * D.
Proof. clear Hb Hg Hror. assert (HD := so_duration x Ok_x). assert (K := half_err u rd Acc a c D HD). assert (U' := U). assert (0 <= u * D) by nra. lra. Qed.
Lemma front_ok t : (0 < snd (computed_position rd x t) \/ snd (computed_position rd x t) < 0) /\ exists m, (m = true <-> 0 < snd (computed_position rd x t)) /\ decides x t (D / 2) (time_error u x t + 2 * u * D) m.
Proof. clear Hb Hg Hror.
  assert (HP := so_period x Ok_x). assert (U' := U).
  set (m := Rltb (Rabs (@simple_dt R bool (rounded rd) o t)) (rd OMul (rd OLit 0.5 0 0.5) D (rd OLit 0.5 0 0.5 * D))).
  assert (O1 := abs_split _ _ (rd_err u rd Acc OLit 1 0 1 1 ltac:(rewrite Rabs_R1; lra))).
  assert (E : snd (computed_position rd x t) = if m then rd OLit 1 0 1 else - rd OLit 1 0 1) by reflexivity. rewrite E.
  split; [destruct m; [left|right]; lra|]. exists m. split; [destruct m; split; intro H; try reflexivity; try discriminate H; lra|].
  apply (decide u rd Acc x HP). apply half_tol.
Qed.
Lemma ap_half e : 0 <= e -> ap v 2 (rd OMul (rd OLit 0.5 0 0.5) e (rd OLit 0.5 0 0.5 * e)) (0.5 * e).
Proof. clear Hb Hg Hror.
  intro He. apply (ap_weak u U (0 + 1 + 0 + 1)); [|lra]. apply (rd_ap u rd Acc). apply (ap_mul u); [apply (rd_ap u rd Acc); apply ap_refl|apply ap_refl].
Qed.
Lemma mask_duration t e : 0 <= dflt 0 e -> decides x t (D / 2 + dflt 0 e / 2) (time_error u x t + 4 * u * (D + dflt 0 e)) (computed_mask rd x t None e).
Proof. clear Hb Hg Hror.
  intro He. assert (HP := so_period x Ok_x). assert (HD := so_duration x Ok_x). destruct v_u' as (V1 & V2 & V3). assert (U' := U).
  set (tol := rd OMul (rd OLit 0.5 0 0.5) D (rd OLit 0.5 0 0.5 * D)). destruct e as [e|].
  - cbn [dflt] in *. set (he := rd OMul (rd OLit 0.5 0 0.5) e (rd OLit 0.5 0 0.5 * e)).
    change (computed_mask rd x t None (Some e)) with (Rltb (Rabs (@simple_dt R bool (rounded rd) o t)) (rd OAdd tol he (tol + he))). apply (decide u rd Acc x HP).
    assert (A1 := ap_half D (Rlt_le _ _ HD)). assert (A2 := ap_half e He). fold tol in A1. fold he in A2.
    assert (A3 := rd_ap u rd Acc OAdd tol he _ _ _ (ap_add u 2 tol (0.5 * D) he (0.5 * e) ltac:(lra) ltac:(lra) A1 A2)). assert (A4 := close_ap u _ _ _ A3 ltac:(fold v; lra)). fold v in A4.
    rewrite (Rabs_pos_eq (0.5 * D + 0.5 * e)) in A4 by lra. replace (D / 2 + e / 2) with (0.5 * D + 0.5 * e) by lra. eapply Rle_trans; [exact A4|].
    replace (4 * u * (D + e)) with (8 * u * (0.5 * D + 0.5 * e)) by lra. apply Rmult_le_compat_r; lra.
  - cbn [dflt] in *. change (computed_mask rd x t None None) with (Rltb (Rabs (@simple_dt R bool (rounded rd) o t)) tol). apply (decide u rd Acc x HP).
    assert (K := half_tol (rd OLit 0.5 0 0.5) D). fold tol in K. assert (0 <= u * D) by nra. replace (D / 2 + 0 / 2) with (D / 2) by lra. lra.
Qed.
Lemma mask_reach t r e : 0 <= r -> 0 <= dflt 0 e -> Rabs (b * rs) < r + rs -> u * (g + grazing (r + rs) (b * rs)) <= 1 / 200 ->
  let tol := D / 2 * (half_reach x r / half_chord x) + dflt 0 e / 2 in
  decides x t tol (time_error u x t + 13 * u * (g + grazing (r + rs) (b * rs)) * tol) (computed_mask rd x t (Some r) e).
Proof.
  intros Hr He Hbr Hgg tol. assert (HP := so_period x Ok_x). assert (HD := so_duration x Ok_x). assert (R0 := so_r_star x Ok_x). destruct v_u' as (V1 & V2 & V3). assert (U' := U). assert (CP := chord_pos).
  destruct g1 as [_ G1]. destruct (grazing_ge (r + rs) (b * rs) ltac:(lra) Hbr) as [F0 F1]. set (g0 := g) in *. set (g2 := grazing (r + rs) (b * rs)) in *.
  assert (ug : 0 <= u * g0) by (apply Rmult_le_pos; lra). assert (ug2 : u * g2 <= 1 / 200) by lra.
  set (r' := s_r_star o). set (B := s_b_norm o). set (s := rd OAdd r r' (r + r')). set (s2 := rd OMul s s (s * s)). set (b2 := rd OMul B B (B * B)). set (df := rd OSub s2 b2 (s2 - b2)).
  set (q := rd OSqrt df 0 (sqrt df)). set (w := rd ODiv q (s_speed o) (q / s_speed o)).
  assert (A1 : ap v 2 s (r + rs)). { apply (ap_weak u U (1 + 1)); [|lra]. apply (rd_ap u rd Acc). apply (ap_add u); [exact Hr|lra|apply (ap_weak u U 0); [apply ap_refl|lra]|apply o_rs]. }
  assert (A2 : ap v 5 s2 ((r + rs) * (r + rs))). { apply (ap_weak u U (2 + 2 + 1)); [|lra]. apply (rd_ap u rd Acc). apply (ap_mul u); exact A1. }
  assert (A3 : ap v 5 b2 (b * rs * (b * rs))). { apply (ap_weak u U (2 + 2 + 1)); [|lra]. apply (rd_ap u rd Acc). apply (ap_mul u); apply o_b_norm. }
  assert (A4 := diff_squares 5 5 (r + rs) (b * rs) s2 b2 ltac:(lra) Hbr A2 A3 ltac:(lra) ltac:(lra) ug2). fold g2 in A4.
  assert (A5 := rd_ap u rd Acc OSub s2 b2 _ _ _ A4). fold df in A5.
  assert (A6 := rd_ap u rd Acc OSqrt df 0 _ _ _ (ap_sqrt u _ _ ((r + rs) * (r + rs) - b * rs * (b * rs)) ltac:(lra) A5)). fold q in A6. fold (half_reach x r) in A6.
  assert (A7 := rd_ap u rd Acc ODiv q (s_speed o) _ _ _ (ap_div u _ _ _ _ _ _ A6 o_speed)). fold w in A7. fold g0 in A7.
  replace (half_reach x r / (2 * half_chord x / D)) with (D / 2 * (half_reach x r / half_chord x)) in A7 by (field; lra).
  set (T := D / 2 * (half_reach x r / half_chord x)) in *.
  assert (T0 : 0 <= T). { unfold T. apply Rmult_le_pos; [lra|]. apply Rmult_le_pos; [apply sqrt_pos|]. left. apply Rinv_0_lt_compat. exact CP. }
  assert (A8 : ap v (11 * g0 + 9.5 * g2 - 1) w T) by (eapply (ap_weak u U); [exact A7|lra]).
  assert (VG : v * (g0 + g2) <= 1.0102 / 200) by nra.
  assert (Last : forall z, ap v (11 * (g0 + g2)) z tol -> Rabs (z - tol) <= 13 * u * (g0 + g2) * tol).
  { intros z Hz. assert (K := close_ap u _ _ _ Hz ltac:(fold v; lra)). fold v in K. assert (0 <= tol) by (unfold tol; lra). rewrite (Rabs_pos_eq tol) in K by assumption.
    eapply Rle_trans; [exact K|]. apply Rmult_le_compat_r; [assumption|]. assert (v * (g0 + g2) <= 1.0102 * u * (g0 + g2)) by (apply Rmult_le_compat_r; lra).
    assert (0 <= u * (g0 + g2)) by (apply Rmult_le_pos; lra). lra. }
  destruct e as [e|].
  - cbn [dflt] in *. set (he := rd OMul (rd OLit 0.5 0 0.5) e (rd OLit 0.5 0 0.5 * e)).
    change (computed_mask rd x t (Some r) (Some e)) with (Rltb (Rabs (@simple_dt R bool (rounded rd) o t)) (rd OAdd w he (w + he))). apply (decide u rd Acc x HP). apply Last.
    assert (A9 : ap v (11 * g0 + 9.5 * g2 - 1) he (e / 2)). { replace (e / 2) with (0.5 * e) by lra. eapply (ap_weak u U); [apply (ap_half e He)|lra]. }
    eapply (ap_weak u U); [apply (rd_ap u rd Acc); apply (ap_add u _ w T he (e / 2) T0 ltac:(lra) A8 A9)|lra].
  - cbn [dflt] in *. change (computed_mask rd x t (Some r) None) with (Rltb (Rabs (@simple_dt R bool (rounded rd) o t)) w). apply (decide u rd Acc x HP). apply Last.
    unfold tol. replace (T + 0 / 2) with T by lra. eapply (ap_weak u U); [exact A8|lra].
Qed.
End X.
End V.
