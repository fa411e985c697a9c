(** * Positions on the sky determine the orbit up to a reflection along the line of sight *)
From Coq Require Import Reals Lra Lia Bool List ZArith Psatz.
From Coquelicot Require Import Coquelicot.
From Verif Require Import Num CoreOps Inst M_units M_kepler Spec_orbit Spec_params Spec_ident.
From Verif Require Import L_real L_kepop L_orbit L_motion L_params3 L_params4 L_pmotion L_pmotion2 L_pmotion5 L_rvmean L_ident.
Open Scope R_scope.

Definition kap (o : orbit R) (t : R) : R := o_n o * o_n o / (Dof o t * Dof o t * Dof o t).
Section S.
Variables (k : consts) (x : kargs R) (o : orbit R).
Hypothesis kok : consts_ok k.
Hypothesis Hinit : kep_init k x = Ok o.
Hypothesis Hph : physical o.
Lemma alin_kap c t : alin o c t = vscale (- kap o t) (lin o c t).
Proof.
  assert (HD := Dof_pos o Hph t). unfold alin, lin, kap. vcrush. apply f_equal2; [apply f_equal2|]; field; lra.
Qed.
Lemma kap_cont t : continuous (kap o) t.
Proof.
  assert (D : forall s, ex_derive (Eof o) s) by (intro s; eexists; apply (Eof_derive o Hph)).
  apply (ex_derive_continuous (kap o)). unfold kap, Dof. assert (HD := Dof_pos o Hph t). unfold Dof in HD. auto_derive. split; [apply D|]. split; [apply D|]. split; [apply D|]. split; [|exact I]. apply Rmult_integral_contrapositive_currified; [apply Rmult_integral_contrapositive_currified|]; lra.
Qed.
Lemma kap_pos t : 0 < kap o t.
Proof. assert (HD := Dof_pos o Hph t). assert (Hn := n_pos k kok x o Hinit Hph). unfold kap. apply Rdiv_lt_0_compat; [apply Rmult_lt_0_compat; lra|apply Rmult_lt_0_compat; [apply Rmult_lt_0_compat|]; lra]. Qed.
Lemma wronski p q c t : c <> 0 -> c * px o t * p + c * py o t * q = 0 ->
  c * o_n o * - sin (Eof o t) / Dof o t * p + c * o_n o * (qo o * cos (Eof o t)) / Dof o t * q = 0 -> p = 0 /\ q = 0.
Proof.
  intros c0 A B. assert (HD := Dof_pos o Hph t). assert (Hn := n_pos k kok x o Hinit Hph). assert (Hq := qo_pos o Hph).
  assert (A' : px o t * p + py o t * q = 0) by (apply (Rmult_eq_reg_l c); [lra|exact c0]).
  assert (B' : - sin (Eof o t) * p + qo o * cos (Eof o t) * q = 0).
  { apply (Rmult_eq_reg_l (c * o_n o / Dof o t)); [|apply Rmult_integral_contrapositive_currified; [apply Rmult_integral_contrapositive_currified; lra|apply Rinv_neq_0_compat; lra]]. rewrite Rmult_0_r. etransitivity; [|exact B]. field. lra. }
  assert (T := sin2_cos2' (Eof o t)). unfold px, py, Dof in *. set (C := cos (Eof o t)) in *. set (s := sin (Eof o t)) in *. set (e := eo o) in *. set (r := qo o) in *.
  assert (D1 : r * (1 - e * C) * p = 0).
  { transitivity (r * ((s * s + C * C) - e * C) * p); [rewrite T; ring|]. transitivity (r * C * ((C - e) * p + r * s * q) - r * s * (- s * p + r * C * q)); [ring|]. rewrite A', B'. ring. }
  assert (D2 : r * (1 - e * C) * q = 0).
  { transitivity (r * ((s * s + C * C) - e * C) * q); [rewrite T; ring|]. transitivity (s * ((C - e) * p + r * s * q) + (C - e) * (- s * p + r * C * q)); [ring|]. rewrite A', B'. ring. }
  apply Rmult_integral in D1. apply Rmult_integral in D2. assert (N : r * (1 - e * C) <> 0) by (apply Rmult_integral_contrapositive_currified; lra). destruct D1 as [D1|D1]; [elim (N D1)|]. destruct D2 as [D2|D2]; [elim (N D2)|]. split; assumption.
Qed.
Lemma D_least : exists t, Dof o t = 1 - eo o.
Proof. exists (o_tper o). unfold Dof, Eof, Mof. replace ((o_tper o - o_tper o) * o_n o) with 0 by ring. rewrite (ecc_anom_zero (eo o) (eo_abs o Hph)), cos_0. ring. Qed.
Lemma D_most : exists t, Dof o t = 1 + eo o.
Proof.
  assert (Hn := n_pos k kok x o Hinit Hph). exists (o_tper o + PI / o_n o). unfold Dof, Eof, Mof. replace ((o_tper o + PI / o_n o - o_tper o) * o_n o) with PI by (field; lra).
  rewrite (ecc_anom_unique PI (eo o) PI (eo_abs o Hph)), cos_PI; [ring|rewrite sin_PI; ring].
Qed.
Lemma D_bounds t : 1 - eo o <= Dof o t <= 1 + eo o.
Proof. assert (B := eo_bound o Hph). assert (C := COS_bound (Eof o t)). unfold Dof. split; nra. Qed.
End S.
Lemma cube_inj a b : 0 < a -> 0 < b -> a * a * a = b * b * b -> a = b.
Proof.
  intros Ha Hb H. destruct (Rtotal_order a b) as [L|[E|L]]; [exfalso|exact E|exfalso].
  - assert (a * a < b * b) by nra. assert (a * a * a < b * b * b) by nra. lra.
  - assert (b * b < a * a) by nra. assert (b * b * b < a * a * a) by nra. lra.
Qed.
(** ** two orbits *)
Section T.
Variables (k : consts) (x x' : kargs R) (o o' : orbit R).
Hypothesis kok : consts_ok k.
Hypothesis Hi : kep_init k x = Ok o.
Hypothesis Hi' : kep_init k x' = Ok o'.
Hypothesis Hp : physical o.
Hypothesis Hp' : physical o'.
Local Notation X := (lin o (- o_a o)).
Local Notation X' := (lin o' (- o_a o')).
Hypothesis Hx : forall t, vx (X t) = vx (X' t).
Hypothesis Hy : forall t, vy (X t) = vy (X' t).
Lemma second t : kap o t * vx (X t) = kap o' t * vx (X t) /\ kap o t * vy (X t) = kap o' t * vy (X t).
Proof.
  assert (V : forall s, vx (vlin o (- o_a o) s) = vx (vlin o' (- o_a o') s) /\ vy (vlin o (- o_a o) s) = vy (vlin o' (- o_a o') s)).
  { intro s. destruct (lin_vderive o Hp (- o_a o) s) as (D1 & D2 & _). destruct (lin_vderive o' Hp' (- o_a o') s) as (E1 & E2 & _).
    rewrite <- (is_derive_unique _ _ _ D1), <- (is_derive_unique _ _ _ D2), <- (is_derive_unique _ _ _ E1), <- (is_derive_unique _ _ _ E2). split; apply Derive_ext; [exact Hx|exact Hy]. }
  destruct (vlin_vderive o Hp (- o_a o) t) as (D1 & D2 & _). destruct (vlin_vderive o' Hp' (- o_a o') t) as (E1 & E2 & _).
  assert (A1 : vx (alin o (- o_a o) t) = vx (alin o' (- o_a o') t)). { rewrite <- (is_derive_unique _ _ _ D1), <- (is_derive_unique _ _ _ E1). apply Derive_ext. intro s. apply (V s). }
  assert (A2 : vy (alin o (- o_a o) t) = vy (alin o' (- o_a o') t)). { rewrite <- (is_derive_unique _ _ _ D2), <- (is_derive_unique _ _ _ E2). apply Derive_ext. intro s. apply (V s). }
  rewrite (alin_kap o Hp), (alin_kap o' Hp') in A1, A2. unfold vscale in A1, A2. unfold vx at 1 3 in A1. unfold vy at 1 3 in A2. cbn [fst snd] in A1, A2. fold (vx (X t)) (vx (X' t)) in A1. fold (vy (X t)) (vy (X' t)) in A2. rewrite <- Hx in A1. rewrite <- Hy in A2. lra.
Qed.
Lemma same_kap t : kap o t = kap o' t.
Proof.
  destruct (Req_dec (kap o t) (kap o' t)) as [E|N]; [exact E|exfalso].
  assert (L : locally t (fun s => kap o s - kap o' s <> 0)).
  { assert (Cn : continuous (fun s => kap o s - kap o' s) t) by (apply (continuous_minus (kap o) (kap o')); apply kap_cont; assumption).
    assert (N' : kap o t - kap o' t <> 0) by lra. apply (Cn (fun v => v <> 0)). exists (mkposreal _ (Rabs_pos_lt _ N')). intros y B.
    cbn in B. unfold AbsRing_ball, abs, minus, plus, opp in B. cbn in B. intros ->. rewrite Rplus_0_l, Rabs_Ropp in B. lra. }
  assert (Zx : locally t (fun s => vx (X s) = 0 /\ vy (X s) = 0)).
  { refine (filter_imp _ _ _ L). intros s H. destruct (second s) as [A B].
    split; apply (Rmult_eq_reg_l (kap o s - kap o' s)); try exact H; lra. }
  assert (Z0 := locally_singleton _ _ Zx). cbn beta in Z0. destruct Z0 as [Z1 Z2].
  destruct (lin_vderive o Hp (- o_a o) t) as (D1 & D2 & _).
  assert (Y1 : vx (vlin o (- o_a o) t) = 0).
  { rewrite <- (is_derive_unique _ _ _ D1). rewrite (Derive_ext_loc _ (fun _ => 0)); [apply Derive_const|]. apply (filter_imp _ _ (fun s (H : vx (X s) = 0 /\ vy (X s) = 0) => proj1 H) Zx). }
  assert (Y2 : vy (vlin o (- o_a o) t) = 0).
  { rewrite <- (is_derive_unique _ _ _ D2). rewrite (Derive_ext_loc _ (fun _ => 0)); [apply Derive_const|]. apply (filter_imp _ _ (fun s (H : vx (X s) = 0 /\ vy (X s) = 0) => proj2 H) Zx). }
  assert (A := ph_a _ Hp). assert (c0 : - o_a o <> 0) by lra.
  assert (P1 := PP k kok x o Hi Hp). assert (Q1 := QQ k kok x o Hi Hp). assert (PQ1 := PQ k kok x o Hi Hp). unfold dot in P1, Q1, PQ1.
  destruct (wronski k x o kok Hi Hp (vx (Pv o)) (vx (Qv o)) _ t c0 Z1 Y1) as [W1 W2]. destruct (wronski k x o kok Hi Hp (vy (Pv o)) (vy (Qv o)) _ t c0 Z2 Y2) as [W3 W4].
  rewrite W1, W3 in P1. rewrite W2, W4 in Q1. rewrite W1, W2, W3, W4 in PQ1. assert (PZ : vz (Pv o) * vz (Qv o) = 0) by lra. apply Rmult_integral in PZ. destruct PZ as [E|E]; rewrite E in *; lra.
Qed.
Lemma same_shape : o_n o = o_n o' /\ eo o = eo o' /\ forall t, Dof o t = Dof o' t.
Proof.
  assert (np := n_pos k kok x o Hi Hp). assert (np' := n_pos k kok x' o' Hi' Hp').
  assert (b := eo_bound o Hp). assert (b' := eo_bound o' Hp').
  assert (C : forall t, o_n o * o_n o * (Dof o' t * Dof o' t * Dof o' t) = o_n o' * o_n o' * (Dof o t * Dof o t * Dof o t)).
  { intro t. assert (K := same_kap t). unfold kap in K. assert (d := Dof_pos o Hp t). assert (d' := Dof_pos o' Hp' t).
    apply (f_equal (fun v => v * ((Dof o t * Dof o t * Dof o t) * (Dof o' t * Dof o' t * Dof o' t)))) in K.
    replace (o_n o * o_n o / (Dof o t * Dof o t * Dof o t) * (Dof o t * Dof o t * Dof o t * (Dof o' t * Dof o' t * Dof o' t))) with (o_n o * o_n o * (Dof o' t * Dof o' t * Dof o' t)) in K by (field; lra).
    replace (o_n o' * o_n o' / (Dof o' t * Dof o' t * Dof o' t) * (Dof o t * Dof o t * Dof o t * (Dof o' t * Dof o' t * Dof o' t))) with (o_n o' * o_n o' * (Dof o t * Dof o t * Dof o t)) in K by (field; lra). exact K. }
  set (N := o_n o * o_n o) in *. set (N' := o_n o' * o_n o') in *. assert (Np : 0 < N) by (apply Rmult_lt_0_compat; lra). assert (Np' : 0 < N') by (apply Rmult_lt_0_compat; lra).
  assert (mono : forall u v, 0 < u -> u <= v -> u * u * u <= v * v * v). { intros u v Hu Huv. assert (u * u <= v * v) by nra. nra. }
  set (e := eo o) in *. set (e' := eo o') in *.
  assert (L1 : N * ((1 - e') * (1 - e') * (1 - e')) = N' * ((1 - e) * (1 - e) * (1 - e))).
  { destruct (D_least o Hp) as [t T]. destruct (D_least o' Hp') as [t' T']. assert (C1 := C t). assert (C2 := C t'). rewrite T in C1. rewrite T' in C2. fold e in C1. fold e' in C2.
    assert (M1 := mono (1 - e') (Dof o' t) ltac:(lra) (proj1 (D_bounds o' Hp' t))). assert (M2 := mono (1 - e) (Dof o t') ltac:(lra) (proj1 (D_bounds o Hp t'))). apply Rle_antisym; nra. }
  assert (L2 : N * ((1 + e') * (1 + e') * (1 + e')) = N' * ((1 + e) * (1 + e) * (1 + e))).
  { destruct (D_most k x o kok Hi Hp) as [t T]. destruct (D_most k x' o' kok Hi' Hp') as [t' T']. assert (C1 := C t). assert (C2 := C t'). rewrite T in C1. rewrite T' in C2. fold e in C1. fold e' in C2.
    assert (M1 := mono (Dof o' t) (1 + e') (Dof_pos o' Hp' t) (proj2 (D_bounds o' Hp' t))). assert (M2 := mono (Dof o t') (1 + e) (Dof_pos o Hp t') (proj2 (D_bounds o Hp t'))). apply Rle_antisym; nra. }
  assert (EE : e = e').
  { assert (Z : (1 - e') * (1 + e) = (1 - e) * (1 + e')).
    { apply cube_inj; [apply Rmult_lt_0_compat; lra|apply Rmult_lt_0_compat; lra|]. apply (Rmult_eq_reg_l (N * N')); [|apply Rgt_not_eq, Rmult_lt_0_compat; lra].
      transitivity ((N * ((1 - e') * (1 - e') * (1 - e'))) * (N' * ((1 + e) * (1 + e) * (1 + e)))); [ring|]. rewrite L1, <- L2. ring. }
    lra. }
  rewrite EE in L1. assert (NN : N = N').
  { apply Rmult_eq_reg_r in L1; [exact L1|]. apply Rgt_not_eq, Rmult_lt_0_compat; [apply Rmult_lt_0_compat|]; lra. }
  split; [apply Rsqr_inj; [lra|lra|exact NN]|]. split; [exact EE|]. intro t. assert (C1 := C t). rewrite <- NN in C1. apply Rmult_eq_reg_l in C1; [|lra]. symmetry. apply cube_inj; [apply Dof_pos; assumption|apply Dof_pos; assumption|exact C1].
Qed.
Lemma same_period : o_period o = o_period o'.
Proof.
  destruct same_shape as (NE & _ & _). assert (F := kep_init_facts k kok x o Hi Hp). assert (F' := kep_init_facts k kok x' o' Hi' Hp').
  assert (p1 := ph_period _ Hp). assert (p2 := ph_period _ Hp'). rewrite (of_n _ _ _ F), (of_n _ _ _ F') in NE. assert (PP := PI_RGT_0).
  apply (f_equal (fun v => v * o_period o * o_period o' / (2 * PI))) in NE.
  replace (2 * PI / o_period o * o_period o * o_period o' / (2 * PI)) with (o_period o') in NE by (field; lra).
  replace (2 * PI / o_period o' * o_period o * o_period o' / (2 * PI)) with (o_period o) in NE by (field; lra). lra.
Qed.
(** the two ways of counting the anomaly differ by a rotation *)
Lemma same_phase : exists c s, c * c + s * s = 1 /\ forall t, px o' t = c * px o t - s * py o t /\ py o' t = s * px o t + c * py o t.
Proof.
  destruct same_shape as (NE & EE & DD). assert (QE : qo o = qo o') by (unfold qo; rewrite EE; reflexivity). destruct (Req_dec (eo o) 0) as [e0|e0].
  - exists (cos (o_n o * (o_tper o - o_tper o'))), (sin (o_n o * (o_tper o - o_tper o'))). split; [generalize (sin2_cos2' (o_n o * (o_tper o - o_tper o'))); lra|]. intro t.
    unfold px, py. rewrite <- QE. unfold qo, Eof. rewrite <- EE, e0. replace (1 - 0 * 0) with 1 by ring. rewrite sqrt_1.
    assert (Z : forall M, ecc_anom M 0 = M) by (intro M; apply ecc_anom_unique; [rewrite Rabs_R0; lra|ring]). rewrite !Z.
    unfold Mof. rewrite <- NE. replace ((t - o_tper o') * o_n o) with ((t - o_tper o) * o_n o + o_n o * (o_tper o - o_tper o')) by ring. rewrite cos_plus, sin_plus. split; ring.
  - exists 1, 0. split; [ring|]. assert (b := eo_bound o Hp). assert (ab := eo_abs o Hp). assert (ab' := eo_abs o' Hp').
    assert (M : exists z : Z, forall t, Mof o' t = Mof o t + IZR z * (2 * PI)).
    { assert (D0 := DD (o_tper o)). unfold Dof in D0. rewrite <- EE in D0. assert (E0 : Eof o (o_tper o) = 0) by (unfold Eof, Mof; replace ((o_tper o - o_tper o) * o_n o) with 0 by ring; apply ecc_anom_zero; exact ab).
      rewrite E0, cos_0 in D0. assert (C1 : cos (Eof o' (o_tper o)) = 1) by (apply (Rmult_eq_reg_l (eo o)); lra).
      assert (S1 : sin (Eof o' (o_tper o)) = 0) by (generalize (sin2_cos2' (Eof o' (o_tper o))); rewrite C1; nra).
      destruct (sincos_inj (Eof o' (o_tper o)) 0) as [z Ez]; [rewrite sin_0; exact S1|rewrite cos_0; exact C1|].
      exists z. intro t. assert (Sp := ecc_anom_spec (Mof o' (o_tper o)) (eo o') ab'). change (ecc_anom (Mof o' (o_tper o)) (eo o')) with (Eof o' (o_tper o)) in Sp. rewrite S1, Ez in Sp.
      unfold Mof in *. rewrite <- NE in *. lra. }
    destruct M as [z M]. intro t. unfold px, py. rewrite <- QE. unfold Eof. rewrite M, <- EE, (ecc_anom_period _ _ _ ab), cos_sub_2PIk, sin_sub_2PIk. split; ring.
Qed.
Lemma indep (al be : R) : (forall t, px o t * al + py o t * be = 0) -> al = 0 /\ be = 0.
Proof.
  intro H. assert (b := eo_bound o Hp). assert (ab := eo_abs o Hp). assert (np := n_pos k kok x o Hi Hp). assert (qp := qo_pos o Hp).
  assert (H1 := H (o_tper o)). assert (H2 := H (o_tper o + (PI / 2 - eo o) / o_n o)). unfold px, py, Eof, Mof in H1, H2.
  replace ((o_tper o - o_tper o) * o_n o) with 0 in H1 by ring. rewrite (ecc_anom_zero _ ab), cos_0, sin_0 in H1.
  replace ((o_tper o + (PI / 2 - eo o) / o_n o - o_tper o) * o_n o) with (PI / 2 - eo o) in H2 by (field; lra).
  rewrite (ecc_anom_unique (PI / 2 - eo o) (eo o) (PI / 2) ab), cos_PI2, sin_PI2 in H2; [|rewrite sin_PI2; ring].
  assert (A : al = 0) by (apply (Rmult_eq_reg_l (1 - eo o)); lra). split; [exact A|]. rewrite A in H2. apply (Rmult_eq_reg_l (qo o)); lra.
Qed.
Lemma reflection : o_a o = o_a o' /\ o_period o = o_period o' /\ ecc_of o = ecc_of o' /\ ((forall t, X' t = X t) \/ forall t, X' t = flip_z (X t)).
Proof.
  destruct same_shape as (_ & EE & _). destruct same_phase as (c & s & U & PH).
  assert (ap := ph_a _ Hp). assert (ap' := ph_a _ Hp').
  assert (P1 := PP k kok x o Hi Hp). assert (Q1 := QQ k kok x o Hi Hp). assert (PQ1 := PQ k kok x o Hi Hp).
  assert (P2 := PP k kok x' o' Hi' Hp'). assert (Q2 := QQ k kok x' o' Hi' Hp'). assert (PQ2 := PQ k kok x' o' Hi' Hp').
  unfold dot in *. destruct (Pv o) as [[p1 p2] p3] eqn:EP. destruct (Qv o) as [[q1 q2] q3] eqn:EQ. destruct (Pv o') as [[g1 g2] g3] eqn:EG. destruct (Qv o') as [[h1 h2] h3] eqn:EH.
  unfold vx, vy, vz in P1, Q1, PQ1, P2, Q2, PQ2. cbn [fst snd] in P1, Q1, PQ1, P2, Q2, PQ2.
  set (a := o_a o) in *. set (a' := o_a o') in *.
  assert (L : forall t, lin o (- a) t = (- a * px o t * p1 + - a * py o t * q1, - a * px o t * p2 + - a * py o t * q2, - a * px o t * p3 + - a * py o t * q3)).
  { intro t. unfold lin. rewrite EP, EQ. reflexivity. }
  assert (L' : forall t, lin o' (- a') t = (- a' * (px o t * (c * g1 + s * h1) + py o t * (c * h1 - s * g1)), - a' * (px o t * (c * g2 + s * h2) + py o t * (c * h2 - s * g2)), - a' * (px o t * (c * g3 + s * h3) + py o t * (c * h3 - s * g3)))).
  { intro t. unfold lin. rewrite EG, EH. destruct (PH t) as [-> ->]. unfold vadd, vscale, vx, vy, vz. cbn [fst snd]. change (o_a o') with a'. apply f_equal2; [apply f_equal2|]; ring. }
  destruct (indep (a * p1 - a' * (c * g1 + s * h1)) (a * q1 - a' * (c * h1 - s * g1))) as [I1 J1].
  { intro t. assert (E := Hx t). change (o_a o) with a in E. change (o_a o') with a' in E. rewrite L, L' in E. unfold vx in E. cbn [fst snd] in E. lra. }
  destruct (indep (a * p2 - a' * (c * g2 + s * h2)) (a * q2 - a' * (c * h2 - s * g2))) as [I2 J2].
  { intro t. assert (E := Hy t). change (o_a o) with a in E. change (o_a o') with a' in E. rewrite L, L' in E. unfold vy in E. cbn [fst snd] in E. lra. }
  set (G1 := c * g1 + s * h1) in *. set (G2 := c * g2 + s * h2) in *. set (G3 := c * g3 + s * h3) in *.
  set (H1 := c * h1 - s * g1) in *. set (H2 := c * h2 - s * g2) in *. set (H3 := c * h3 - s * g3) in *.
  assert (GG : G1 * G1 + G2 * G2 + G3 * G3 = 1).
  { transitivity (c * c * (g1 * g1 + g2 * g2 + g3 * g3) + s * s * (h1 * h1 + h2 * h2 + h3 * h3) + 2 * c * s * (g1 * h1 + g2 * h2 + g3 * h3)); [unfold G1, G2, G3; ring|rewrite P2, Q2, PQ2; lra]. }
  assert (HH : H1 * H1 + H2 * H2 + H3 * H3 = 1).
  { transitivity (s * s * (g1 * g1 + g2 * g2 + g3 * g3) + c * c * (h1 * h1 + h2 * h2 + h3 * h3) - 2 * c * s * (g1 * h1 + g2 * h2 + g3 * h3)); [unfold H1, H2, H3; ring|rewrite P2, Q2, PQ2; lra]. }
  assert (GH : G1 * H1 + G2 * H2 + G3 * H3 = 0).
  { transitivity (c * s * ((h1 * h1 + h2 * h2 + h3 * h3) - (g1 * g1 + g2 * g2 + g3 * g3)) + (c * c - s * s) * (g1 * h1 + g2 * h2 + g3 * h3)); [unfold G1, G2, G3, H1, H2, H3; ring|rewrite P2, Q2, PQ2; lra]. }
  clearbody G1 G2 G3 H1 H2 H3.
  set (A := (a * p1) * (a * p1) + (a * p2) * (a * p2)) in *. set (B := (a * q1) * (a * q1) + (a * q2) * (a * q2)) in *. set (D := (a * p1) * (a * q1) + (a * p2) * (a * q2)) in *.
  assert (e1 : (a * p3) * (a * p3) = a * a - A) by (unfold A; transitivity (a * a * (p1 * p1 + p2 * p2 + p3 * p3) - (a * p1 * (a * p1) + a * p2 * (a * p2))); [ring|rewrite P1; ring]).
  assert (e2 : (a * q3) * (a * q3) = a * a - B) by (unfold B; transitivity (a * a * (q1 * q1 + q2 * q2 + q3 * q3) - (a * q1 * (a * q1) + a * q2 * (a * q2))); [ring|rewrite Q1; ring]).
  assert (e3 : (a * p3) * (a * q3) = - D) by (unfold D; transitivity (a * a * (p1 * q1 + p2 * q2 + p3 * q3) - (a * p1 * (a * q1) + a * p2 * (a * q2))); [ring|rewrite PQ1; ring]).
  assert (d1 : (a' * G3) * (a' * G3) = a' * a' - A).
  { unfold A. replace (a * p1) with (a' * G1) by lra. replace (a * p2) with (a' * G2) by lra. transitivity (a' * a' * (G1 * G1 + G2 * G2 + G3 * G3) - (a' * G1 * (a' * G1) + a' * G2 * (a' * G2))); [ring|rewrite GG; ring]. }
  assert (d2 : (a' * H3) * (a' * H3) = a' * a' - B).
  { unfold B. replace (a * q1) with (a' * H1) by lra. replace (a * q2) with (a' * H2) by lra. transitivity (a' * a' * (H1 * H1 + H2 * H2 + H3 * H3) - (a' * H1 * (a' * H1) + a' * H2 * (a' * H2))); [ring|rewrite HH; ring]. }
  assert (d3 : (a' * G3) * (a' * H3) = - D).
  { unfold D. replace (a * p1) with (a' * G1) by lra. replace (a * p2) with (a' * G2) by lra. replace (a * q1) with (a' * H1) by lra. replace (a * q2) with (a' * H2) by lra.
    transitivity (a' * a' * (G1 * H1 + G2 * H2 + G3 * H3) - (a' * G1 * (a' * H1) + a' * G2 * (a' * H2))); [ring|rewrite GH; ring]. }
  set (u := a * p3) in *. set (v := a * q3) in *. set (u' := a' * G3) in *. set (v' := a' * H3) in *.
  assert (M : (a * a - A) * (a * a - B) = (a' * a' - A) * (a' * a' - B)).
  { rewrite <- e1, <- e2, <- d1, <- d2. transitivity ((u * v) * (u * v)); [ring|]. rewrite e3, <- d3. ring. }
  assert (n1 : 0 <= a * a - A) by (rewrite <- e1; apply Rle_0_sqr). assert (n2 : 0 <= a * a - B) by (rewrite <- e2; apply Rle_0_sqr).
  assert (n1' : 0 <= a' * a' - A) by (rewrite <- d1; apply Rle_0_sqr). assert (n2' : 0 <= a' * a' - B) by (rewrite <- d2; apply Rle_0_sqr).
  assert (AA : a = a').
  { clearbody a a' A B. clear - ap ap' M n1 n2 n1' n2'. destruct (Rtotal_order a a') as [l|[E|l]]; [exfalso|exact E|exfalso].
    - set (dl := a' * a' - a * a). assert (0 < dl) by (unfold dl; nra). assert ((a' * a' - A) * (a' * a' - B) = (a * a - A) * (a * a - B) + dl * ((a * a - A) + (a * a - B) + dl)) by (unfold dl; ring).
      assert (0 < dl * ((a * a - A) + (a * a - B) + dl)) by (apply Rmult_lt_0_compat; lra). lra.
    - set (dl := a * a - a' * a'). assert (0 < dl) by (unfold dl; nra). assert ((a * a - A) * (a * a - B) = (a' * a' - A) * (a' * a' - B) + dl * ((a' * a' - A) + (a' * a' - B) + dl)) by (unfold dl; ring).
      assert (0 < dl * ((a' * a' - A) + (a' * a' - B) + dl)) by (apply Rmult_lt_0_compat; lra). lra. }
  split; [exact AA|]. split; [apply same_period|]. split; [exact EE|].
  rewrite <- AA in d1, d2. rewrite <- e1 in d1. rewrite <- e2 in d2. rewrite <- e3 in d3.
  assert (R : (u' = u /\ v' = v) \/ (u' = - u /\ v' = - v)).
  { assert (s1 : (u' - u) * (u' + u) = 0) by lra. assert (s2 : (v' - v) * (v' + v) = 0) by lra. apply Rmult_integral in s1. apply Rmult_integral in s2. clearbody u v u' v'. clear - s1 s2 d3.
    destruct s1 as [s1|s1], s2 as [s2|s2].
    - left. split; lra.
    - assert (E1 : u' = u) by lra. assert (E2 : v' = - v) by lra. subst u' v'. assert (Zr : u * v = 0) by lra. apply Rmult_integral in Zr. destruct Zr as [->| ->]; [right|left]; split; ring.
    - assert (E1 : u' = - u) by lra. assert (E2 : v' = v) by lra. subst u' v'. assert (Zr : u * v = 0) by lra. apply Rmult_integral in Zr. destruct Zr as [->| ->]; [left|right]; split; ring.
    - right. split; lra. }
  destruct R as [[R1 R2]|[R1 R2]]; [left|right]; intro t; rewrite L, L'; unfold flip_z, vx, vy, vz; cbn [fst snd];
    (apply f_equal2; [apply f_equal2|]).
  - transitivity (- (px o t * (a' * G1) + py o t * (a' * H1))); [ring|]. replace (a' * G1) with (a * p1) by lra. replace (a' * H1) with (a * q1) by lra. ring.
  - transitivity (- (px o t * (a' * G2) + py o t * (a' * H2))); [ring|]. replace (a' * G2) with (a * p2) by lra. replace (a' * H2) with (a * q2) by lra. ring.
  - transitivity (- (px o t * u' + py o t * v')); [unfold u', v'; ring|]. rewrite R1, R2. unfold u, v. ring.
  - transitivity (- (px o t * (a' * G1) + py o t * (a' * H1))); [ring|]. replace (a' * G1) with (a * p1) by lra. replace (a' * H1) with (a * q1) by lra. ring.
  - transitivity (- (px o t * (a' * G2) + py o t * (a' * H2))); [ring|]. replace (a' * G2) with (a * p2) by lra. replace (a' * H2) with (a * q2) by lra. ring.
  - transitivity (- (px o t * u' + py o t * v')); [unfold u', v'; ring|]. rewrite R1, R2. unfold u, v. ring.
Qed.
End T.
