(** * Radial velocities identify the orbit *)
From Coq Require Import Reals Lra Lia Bool List ZArith Psatz.
From Coquelicot Require Import Coquelicot.
From Verif Require Import Num CoreOps Inst M_units M_kepler Spec_orbit Spec_params.
From Verif Require Import L_real L_kepop L_orbit L_motion L_params3 L_params4 L_pmotion L_pmotion2 L_pmotion5 L_rvmean.
Open Scope R_scope.

Section S.
Variables (k : consts) (x : kargs R) (o : orbit R).
Hypothesis kok : consts_ok k.
Hypothesis Hinit : kep_init k x = Ok o.
Hypothesis Hph : physical o.
Let F := kep_init_facts k kok x o Hinit Hph.
Local Notation e := (ecc_of o).
Local Notation cw := (cosw_of o).
Local Notation sw := (sinw_of o).

(** cosine and sine of the angle from the node *)
Definition thc (t : R) : R := cw * kepler_cosf (Mof o t) e - sw * kepler_sinf (Mof o t) e.
Definition ths (t : R) : R := sw * kepler_cosf (Mof o t) e + cw * kepler_sinf (Mof o t) e.
Lemma th_unit t : thc t * thc t + ths t * ths t = 1.
Proof.
  assert (U := w_unit o Hph). assert (V := kepler_unit (Mof o t) e (eo_abs o Hph)). unfold thc, ths.
  set (c := kepler_cosf _ _) in *. set (s := kepler_sinf _ _) in *. transitivity ((cw * cw + sw * sw) * (s * s + c * c)); [ring|]. rewrite U, V. ring.
Qed.
Lemma th_cosf t : kepler_cosf (Mof o t) e = cw * thc t + sw * ths t /\ kepler_sinf (Mof o t) e = cw * ths t - sw * thc t.
Proof.
  assert (U := w_unit o Hph). unfold thc, ths. set (c := kepler_cosf _ _) in *. set (s := kepler_sinf _ _) in *. split.
  - transitivity ((cw * cw + sw * sw) * c); [rewrite U; ring|ring].
  - transitivity ((cw * cw + sw * sw) * s); [rewrite U; ring|ring].
Qed.
Lemma rvf_th K t : rvf o K t = K * (thc t + e * cw).
Proof. unfold rvf, thc. ring. Qed.
Definition rate (t : R) : R := o_n o / (qo o * qo o * qo o) * ((1 + e * cw * thc t + e * sw * ths t) * (1 + e * cw * thc t + e * sw * ths t)).
Lemma th_taken c s : c * c + s * s = 1 -> exists t, thc t = c /\ ths t = s.
Proof.
  intro U. assert (W := w_unit o Hph). destruct (angle_taken k x o kok Hinit Hph (cw * c + sw * s) (cw * s - sw * c)) as (t & C & S).
  { transitivity ((cw * cw + sw * sw) * (c * c + s * s)); [ring|rewrite U, W; ring]. }
  exists t. unfold thc, ths. rewrite C, S. split.
  - transitivity ((cw * cw + sw * sw) * c); [ring|rewrite W; ring].
  - transitivity ((cw * cw + sw * sw) * s); [ring|rewrite W; ring].
Qed.
Lemma rvf_rate K t : is_derive (rvf o K) t (- K * rate t * ths t).
Proof.
  assert (Hn := n_pos k kok x o Hinit Hph). assert (HD := Dof_pos o Hph t). assert (Hq := qo_pos o Hph). assert (Hq2 := qo_sqr o Hph).
  apply (is_derive_ext (fun s => K * qo o * (cw * (qo o * cos (Eof o s) / Dof o s) + sw * (- sin (Eof o s) / Dof o s)))).
  { intro s. assert (HDs := Dof_pos o Hph s). unfold rvf. change e with (eo o). rewrite (cosf_form o), (sinf_form o).
    transitivity (K * (cw * ((qo o * qo o) * cos (Eof o s)) - sw * qo o * sin (Eof o s)) / Dof o s); [cbn; field; lra|].
    rewrite Hq2. unfold Dof in *. cbn. field. lra. }
  evar_last.
  - apply (is_derive_scal (fun s => cw * (qo o * cos (Eof o s) / Dof o s) + sw * (- sin (Eof o s) / Dof o s)) t (K * qo o)).
    apply (is_derive_plus (fun s => cw * (qo o * cos (Eof o s) / Dof o s)) (fun s => sw * (- sin (Eof o s) / Dof o s))); apply is_derive_scal; [apply (vpy_derive o Hph)|apply (vpx_derive o Hph)].
  - unfold scal, plus; simpl; unfold mult; simpl. unfold rate. destruct (th_cosf t) as [C _].
    replace (1 + e * cw * thc t + e * sw * ths t) with (1 + e * kepler_cosf (Mof o t) e) by (rewrite C; ring).
    assert (Hf : 1 + e * kepler_cosf (Mof o t) e = (1 - e * e) / Dof o t) by (apply kepler_1ecosf, (eo_abs o Hph)).
    rewrite Hf. unfold ths. change e with (eo o). rewrite (cosf_form o), (sinf_form o), <- Hq2. unfold px, py. field. lra.
Qed.
Lemma factor_pos t : 0 < 1 + e * cw * thc t + e * sw * ths t.
Proof.
  destruct (th_cosf t) as [C _]. replace (1 + e * cw * thc t + e * sw * ths t) with (1 + e * kepler_cosf (Mof o t) e) by (rewrite C; ring).
  assert (Hf : 1 + e * kepler_cosf (Mof o t) e = (1 - e * e) / Dof o t) by (apply kepler_1ecosf, (eo_abs o Hph)).
  rewrite Hf. assert (B := eo_bound o Hph). change (eo o) with e in B. apply Rdiv_lt_0_compat; [nra|apply (Dof_pos o Hph)].
Qed.
Lemma rate_pos t : 0 < rate t.
Proof.
  assert (Hn := n_pos k kok x o Hinit Hph). assert (Hq := qo_pos o Hph). assert (P := factor_pos t). unfold rate.
  apply Rmult_lt_0_compat; [apply Rdiv_lt_0_compat; [lra|apply Rmult_lt_0_compat; [apply Rmult_lt_0_compat|]; lra]|apply Rmult_lt_0_compat; lra].
Qed.
(** the angle recurs after whole periods only *)
Lemma anomaly_inj M N : kepler_cosf M e = kepler_cosf N e -> kepler_sinf M e = kepler_sinf N e -> exists z : Z, M = N + IZR z * (2 * PI).
Proof.
  intros C S. assert (B := eo_abs o Hph). change (eo o) with e in B. assert (Hq := qo_pos o Hph). unfold qo in Hq. change (eo o) with e in Hq. set (q := sqrt (1 - e * e)) in *.
  assert (D : 1 - e * cos (ecc_anom M e) = 1 - e * cos (ecc_anom N e)).
  { assert (A1 := kepler_1ecosf M e B). assert (A2 := kepler_1ecosf N e B). rewrite C in A1. rewrite A1 in A2.
    assert (P1 := ecos_pos e (ecc_anom M e) B). assert (P2 := ecos_pos e (ecc_anom N e) B). assert (P3 := one_m_e2_pos e B).
    set (d1 := 1 - e * cos (ecc_anom M e)) in *. set (d2 := 1 - e * cos (ecc_anom N e)) in *. clearbody d1 d2.
    apply (f_equal (fun v => v * d1 * d2)) in A2. replace ((1 - e * e) / d1 * d1 * d2) with ((1 - e * e) * d2) in A2 by (field; lra).
    replace ((1 - e * e) / d2 * d1 * d2) with ((1 - e * e) * d1) in A2 by (field; lra). apply Rmult_eq_reg_l in A2; lra. }
  unfold kepler_cosf in C. unfold kepler_sinf in S. fold q in S. rewrite D in C, S. assert (P2 := ecos_pos e (ecc_anom N e) B).
  set (d := 1 - e * cos (ecc_anom N e)) in *.
  assert (C' : cos (ecc_anom M e) = cos (ecc_anom N e)). { apply (f_equal (fun v => v * d)) in C. unfold Rdiv in C. rewrite !Rmult_assoc, Rinv_l in C by lra. lra. }
  assert (S' : sin (ecc_anom M e) = sin (ecc_anom N e)). { apply (f_equal (fun v => v * d / q)) in S. replace (q * sin (ecc_anom M e) / d * d / q) with (sin (ecc_anom M e)) in S by (field; lra).
    replace (q * sin (ecc_anom N e) / d * d / q) with (sin (ecc_anom N e)) in S by (field; lra). exact S. }
  destruct (sincos_inj _ _ S' C') as [z E]. exists z. rewrite <- (ecc_anom_spec M e B), <- (ecc_anom_spec N e B), S', E. ring.
Qed.
Lemma th_inj t s : thc t = thc s -> ths t = ths s -> exists z : Z, t = s + IZR z * o_period o.
Proof.
  intros C S. destruct (anomaly_inj (Mof o t) (Mof o s)) as [z E].
  { destruct (th_cosf t) as [-> _]. destruct (th_cosf s) as [-> _]. rewrite C, S. reflexivity. }
  { destruct (th_cosf t) as [_ ->]. destruct (th_cosf s) as [_ ->]. rewrite C, S. reflexivity. }
  exists z. assert (P := ph_period _ Hph). assert (Hn := n_pos k kok x o Hinit Hph). unfold Mof in E.
  apply (Rmult_eq_reg_l (o_n o)); [|lra]. rewrite Rmult_plus_distr_l. replace (o_n o * (IZR z * o_period o)) with (IZR z * (2 * PI)); [lra|].
  rewrite (of_n _ _ _ F). field. lra.
Qed.
(** at t0 the planet is a quarter turn from the node *)
Lemma th_t0 : thc (o_t0 o) = 0 /\ (sw <> -1 -> ths (o_t0 o) = 1) /\ (sw = -1 -> ths (o_t0 o) = -1).
Proof.
  assert (Hn := n_pos k kok x o Hinit Hph). assert (He := eo_bound o Hph). assert (Hea := eo_abs o Hph). assert (Hw := w_unit o Hph).
  assert (EM : Mof o (o_t0 o) = o_M0 o). { unfold Mof. rewrite (of_t0 _ _ _ F). field. lra. }
  unfold thc, ths. rewrite EM. destruct (Req_dec sw (-1)) as [Hs|Hs].
  - assert (Hc : cw = 0) by (rewrite Hs in Hw; nra).
    assert (HM0 : o_M0 o = 0).
    { destruct (o_ecc o) as [d|] eqn:E.
      - rewrite (of_M0_ecc _ _ _ F d E). unfold kep_M0. simR.
        assert (cosw_of o = e_cosw d) as Hc' by (unfold cosw_of; rewrite E; auto).
        assert (sinw_of o = e_sinw d) as Hs' by (unfold sinw_of; rewrite E; auto).
        rewrite <- Hc', <- Hs', Hc, Hs. replace (1 + -1) with 0 by ring. rewrite !Rmult_0_r, Ratan2_00, Rmult_0_r, sin_0. ring.
      - unfold sinw_of in Hs. rewrite E in Hs. lra. }
    rewrite HM0, Hc. assert (E0 : ecc_anom 0 e = 0) by (apply ecc_anom_unique; [exact Hea|rewrite sin_0; ring]).
    unfold kepler_cosf, kepler_sinf. rewrite E0, sin_0, cos_0. change e with (eo o) in *. rewrite Hs. split; [field; lra|]. split; [intro X; elim X; reflexivity|intros _; field; lra].
  - assert (Hcs : kepler_sinf (o_M0 o) (eo o) = cosw_of o /\ kepler_cosf (o_M0 o) (eo o) = sinw_of o).
    { destruct (o_ecc o) as [d|] eqn:E.
      - rewrite (of_M0_ecc _ _ _ F d E). unfold kep_M0. simR.
        assert (eo o = e_ecc d) as He' by (unfold eo, ecc_of; rewrite E; auto).
        assert (cosw_of o = e_cosw d) as Hc by (unfold cosw_of; rewrite E; auto).
        assert (sinw_of o = e_sinw d) as Hs' by (unfold sinw_of; rewrite E; auto).
        rewrite He', Hc, Hs' in *. apply conj_anomaly; auto.
      - assert (eo o = 0) as -> by (unfold eo, ecc_of; rewrite E; auto).
        rewrite (of_M0_circ _ _ _ F E), kepler_sinf_0, kepler_cosf_0, sin_PI2, cos_PI2.
        unfold cosw_of, sinw_of. rewrite E. auto. }
    destruct Hcs as [H1 H2]. change (eo o) with e in H1, H2. rewrite H1, H2. split; [ring|]. split; [intros _; lra|intro X; elim (Hs X)].
Qed.
End S.

Section T.
Variables (k : consts) (x x' : kargs R) (o o' : orbit R).
Hypothesis kok : consts_ok k.
Hypothesis Hi : kep_init k x = Ok o.
Hypothesis Hi' : kep_init k x' = Ok o'.
Hypothesis Hp : physical o.
Hypothesis Hp' : physical o'.
Lemma same_extremes K K' : 0 < K -> 0 < K' -> (forall t, rvf o K t = rvf o' K' t) -> K = K' /\ ecc_of o * cosw_of o = ecc_of o' * cosw_of o'.
Proof.
  intros HK HK' H. destruct (extremes k x o kok Hi Hp K 0) as (a & b & _ & _ & A & B). destruct (extremes k x' o' kok Hi' Hp' K' 0) as (a' & b' & _ & _ & A' & B').
  assert (G : forall o0, physical o0 -> forall K0, 0 < K0 -> forall t, K0 * (ecc_of o0 * cosw_of o0 - 1) <= rvf o0 K0 t <= K0 * (ecc_of o0 * cosw_of o0 + 1)).
  { intros o0 P0 K0 H0 t. rewrite rvf_th. assert (U := th_unit o0 P0 t). assert (-1 <= thc o0 t <= 1) by nra. split; nra. }
  assert (Ga := G o' Hp' K' HK' a). assert (Gb := G o' Hp' K' HK' b). assert (Ga' := G o Hp K HK a'). assert (Gb' := G o Hp K HK b').
  rewrite <- H, ?A, ?B in Ga, Gb. rewrite H, ?A', ?B' in Ga', Gb'. assert (E : K = K') by lra. split; [exact E|]. subst K'. apply (Rmult_eq_reg_l K); lra.
Qed.
Lemma same_angle K K' : 0 < K -> 0 < K' -> (forall t, rvf o K t = rvf o' K' t) -> forall t, thc o t = thc o' t /\ ths o t = ths o' t /\ (ths o t <> 0 -> rate o t = rate o' t).
Proof.
  intros HK HK' H. destruct (same_extremes K K' HK HK' H) as [E X]. subst K'. intro t.
  assert (C : thc o t = thc o' t). { specialize (H t). rewrite !rvf_th, X in H. apply Rmult_eq_reg_l in H; lra. }
  assert (D : - K * rate o t * ths o t = - K * rate o' t * ths o' t).
  { rewrite <- (is_derive_unique _ _ _ (rvf_rate k x o kok Hi Hp K t)), <- (is_derive_unique _ _ _ (rvf_rate k x' o' kok Hi' Hp' K t)). apply Derive_ext. exact H. }
  assert (D' : rate o t * ths o t = rate o' t * ths o' t) by (apply (Rmult_eq_reg_l (- K)); lra). clear D.
  assert (R1 := rate_pos k x o kok Hi Hp t). assert (R2 := rate_pos k x' o' kok Hi' Hp' t). assert (U := th_unit o Hp t). assert (U' := th_unit o' Hp' t). rewrite <- C in U'.
  assert (Sq : (ths o t - ths o' t) * (ths o t + ths o' t) = 0) by lra.
  assert (S : ths o t = ths o' t).
  { apply Rmult_integral in Sq. destruct Sq as [Sq|Sq]; [lra|]. assert (Y : ths o' t = - ths o t) by lra. rewrite Y in D' |- *. assert (Z0 : (rate o t + rate o' t) * ths o t = 0) by lra. apply Rmult_integral in Z0. destruct Z0; lra. }
  split; [exact C|]. split; [exact S|]. intro N. rewrite <- S in D'. apply Rmult_eq_reg_r in D'; assumption.
Qed.
Lemma identify K K' : 0 < K -> 0 < K' -> (forall t, rvf o K t = rvf o' K' t) ->
  K = K' /\ o_period o = o_period o' /\ ecc_of o = ecc_of o' /\ ecc_of o * cosw_of o = ecc_of o' * cosw_of o' /\ ecc_of o * sinw_of o = ecc_of o' * sinw_of o' /\
  ((sinw_of o = -1 <-> sinw_of o' = -1) -> exists z : Z, o_t0 o = o_t0 o' + IZR z * o_period o).
Proof.
  intros HK HK' H. destruct (same_extremes K K' HK HK' H) as [E X]. assert (Q := same_angle K K' HK HK' H). split; [exact E|].
  destruct (th_taken k x o kok Hi Hp 0 1 ltac:(lra)) as (t1 & C1 & S1). destruct (th_taken k x o kok Hi Hp 0 (-1) ltac:(lra)) as (t2 & C2 & S2).
  destruct (Q t1) as (A1 & B1 & G1). destruct (Q t2) as (A2 & B2 & G2). rewrite S1 in G1. rewrite S2 in G2. specialize (G1 ltac:(lra)). specialize (G2 ltac:(lra)).
  assert (P1 := factor_pos o Hp t1). assert (P2 := factor_pos o Hp t2). assert (P1' := factor_pos o' Hp' t1). assert (P2' := factor_pos o' Hp' t2).
  unfold rate in G1, G2. rewrite <- A1, <- B1 in G1, P1'. rewrite <- A2, <- B2 in G2, P2'. rewrite C1, S1 in *. rewrite C2, S2 in *.
  assert (qp := qo_pos o Hp). assert (qp' := qo_pos o' Hp'). assert (np := n_pos k kok x o Hi Hp). assert (np' := n_pos k kok x' o' Hi' Hp').
  set (be := o_n o / (qo o * qo o * qo o)) in *. set (be' := o_n o' / (qo o' * qo o' * qo o')) in *.
  assert (bp : 0 < be) by (apply Rdiv_lt_0_compat; [|apply Rmult_lt_0_compat; [apply Rmult_lt_0_compat|]]; lra).
  assert (bp' : 0 < be') by (apply Rdiv_lt_0_compat; [|apply Rmult_lt_0_compat; [apply Rmult_lt_0_compat|]]; lra).
  set (Y := ecc_of o * sinw_of o) in *. set (Y' := ecc_of o' * sinw_of o') in *.
  replace (1 + ecc_of o * cosw_of o * 0 + Y * 1) with (1 + Y) in * by ring. replace (1 + ecc_of o' * cosw_of o' * 0 + Y' * 1) with (1 + Y') in * by ring.
  replace (1 + ecc_of o * cosw_of o * 0 + Y * -1) with (1 - Y) in * by ring. replace (1 + ecc_of o' * cosw_of o' * 0 + Y' * -1) with (1 - Y') in * by ring.
  assert (YE : Y = Y').
  { assert (Z1 : ((1 + Y) * (1 - Y')) * ((1 + Y) * (1 - Y')) = ((1 - Y) * (1 + Y')) * ((1 - Y) * (1 + Y'))).
    { apply (Rmult_eq_reg_l (be * be')); [|apply Rgt_not_eq, Rmult_lt_0_compat; lra].
      transitivity ((be * ((1 + Y) * (1 + Y))) * (be' * ((1 - Y') * (1 - Y')))); [ring|]. rewrite G1, <- G2. ring. }
    assert (Z2 : (1 + Y) * (1 - Y') = (1 - Y) * (1 + Y')).
    { apply Rsqr_inj; [apply Rlt_le, Rmult_lt_0_compat; lra|apply Rlt_le, Rmult_lt_0_compat; lra|exact Z1]. }
    lra. }
  assert (BE : be = be'). { rewrite YE in G1. apply Rmult_eq_reg_r in G1; [exact G1|]. apply Rgt_not_eq, Rmult_lt_0_compat; lra. }
  assert (EE : ecc_of o = ecc_of o').
  { assert (W := w_unit o Hp). assert (W' := w_unit o' Hp'). assert (b1 := eo_bound o Hp). assert (b1' := eo_bound o' Hp'). change (eo o) with (ecc_of o) in b1. change (eo o') with (ecc_of o') in b1'.
    apply Rsqr_inj; [lra|lra|]. unfold Rsqr. transitivity ((ecc_of o * cosw_of o) * (ecc_of o * cosw_of o) + Y * Y).
    - unfold Y. transitivity (ecc_of o * ecc_of o * (cosw_of o * cosw_of o + sinw_of o * sinw_of o)); [rewrite W; ring|ring].
    - rewrite X, YE. unfold Y'. transitivity (ecc_of o' * ecc_of o' * (cosw_of o' * cosw_of o' + sinw_of o' * sinw_of o')); [ring|rewrite W'; ring]. }
  assert (NE : o_n o = o_n o').
  { assert (QE : qo o = qo o') by (unfold qo, eo; rewrite EE; reflexivity). unfold be, be' in BE. rewrite <- QE in BE. apply (f_equal (fun v => v * (qo o * qo o * qo o))) in BE.
    unfold Rdiv in BE. rewrite !Rmult_assoc, Rinv_l in BE; [lra|]. apply Rgt_not_eq, Rmult_lt_0_compat; [|apply Rmult_lt_0_compat]; lra. }
  assert (F := kep_init_facts k kok x o Hi Hp). assert (F' := kep_init_facts k kok x' o' Hi' Hp').
  assert (PE : o_period o = o_period o').
  { assert (p1 := ph_period _ Hp). assert (p2 := ph_period _ Hp'). rewrite (of_n _ _ _ F), (of_n _ _ _ F') in NE. assert (PP := PI_RGT_0).
    apply (f_equal (fun v => v * o_period o * o_period o' / (2 * PI))) in NE.
    replace (2 * PI / o_period o * o_period o * o_period o' / (2 * PI)) with (o_period o') in NE by (field; lra).
    replace (2 * PI / o_period o' * o_period o * o_period o' / (2 * PI)) with (o_period o) in NE by (field; lra). lra. }
  split; [exact PE|]. split; [exact EE|]. split; [exact X|]. split; [exact YE|]. intro SW. rewrite PE.
  destruct (th_t0 k x o kok Hi Hp) as (T1 & T2 & T3). destruct (th_t0 k x' o' kok Hi' Hp') as (T1' & T2' & T3').
  destruct (Q (o_t0 o)) as (A3 & B3 & _).
  apply (th_inj k x' o' kok Hi' Hp'); [lra|]. destruct (Req_dec (sinw_of o) (-1)) as [c|c].
  - rewrite <- B3, (T3 c), (T3' (proj1 SW c)). reflexivity.
  - rewrite <- B3, (T2 c), (T2' (fun c' => c (proj2 SW c'))). reflexivity.
Qed.
(** conversely *)
Lemma Mof_t0 o0 t : Mof o0 t = Mof o0 (o_t0 o0) + o_n o0 * (t - o_t0 o0).
Proof. unfold Mof. ring. Qed.
Lemma identical K : o_period o = o_period o' -> ecc_of o = ecc_of o' -> ecc_of o * cosw_of o = ecc_of o' * cosw_of o' -> ecc_of o * sinw_of o = ecc_of o' * sinw_of o' ->
  (sinw_of o = -1 <-> sinw_of o' = -1) -> (exists z : Z, o_t0 o = o_t0 o' + IZR z * o_period o) -> forall t, rvf o K t = rvf o' K t.
Proof.
  intros PE EE X Y SW [z TE] t. rewrite !rvf_th, X. f_equal. f_equal.
  assert (F := kep_init_facts k kok x o Hi Hp). assert (F' := kep_init_facts k kok x' o' Hi' Hp'). assert (pp := ph_period _ Hp).
  assert (NE : o_n o = o_n o') by (rewrite (of_n _ _ _ F), (of_n _ _ _ F'), PE; reflexivity).
  destruct (th_t0 k x o kok Hi Hp) as (T1 & T2 & T3). destruct (th_t0 k x' o' kok Hi' Hp') as (T1' & T2' & T3').
  assert (TS : ths o (o_t0 o) = ths o' (o_t0 o')).
  { destruct (Req_dec (sinw_of o) (-1)) as [c|c]; [rewrite (T3 c), (T3' (proj1 SW c)); reflexivity|rewrite (T2 c), (T2' (fun c' => c (proj2 SW c'))); reflexivity]. }
  assert (SH : o_n o * (t - o_t0 o) = o_n o' * (t - o_t0 o') + IZR (- z) * (2 * PI)).
  { rewrite TE, <- NE, opp_IZR. replace (2 * PI) with (o_n o * o_period o) by (rewrite (of_n _ _ _ F); field; lra). ring. }
  assert (b1 := eo_bound o Hp). change (eo o) with (ecc_of o) in b1.
  destruct (Req_dec (ecc_of o) 0) as [e0|e0].
  - assert (G : forall o0, ecc_of o0 = 0 -> physical o0 -> thc o0 (o_t0 o0) = 0 -> thc o0 t = - ths o0 (o_t0 o0) * sin (o_n o0 * (t - o_t0 o0))).
    { intros o0 E0 P0 C0. unfold thc, ths in *. rewrite E0 in *. rewrite !kepler_cosf_0, !kepler_sinf_0 in *. rewrite (Mof_t0 o0 t), cos_plus, sin_plus. set (d := o_n o0 * _) in *.
      transitivity ((cosw_of o0 * cos (Mof o0 (o_t0 o0)) - sinw_of o0 * sin (Mof o0 (o_t0 o0))) * cos d - (sinw_of o0 * cos (Mof o0 (o_t0 o0)) + cosw_of o0 * sin (Mof o0 (o_t0 o0))) * sin d); [ring|]. rewrite C0. ring. }
    rewrite (G o e0 Hp T1), (G o' (eq_trans (eq_sym EE) e0) Hp' T1'), TS, SH, sin_sub_2PIk. reflexivity.
  - assert (CE : cosw_of o = cosw_of o') by (rewrite <- EE in X; apply (Rmult_eq_reg_l (ecc_of o)); assumption).
    assert (SE : sinw_of o = sinw_of o') by (rewrite <- EE in Y; apply (Rmult_eq_reg_l (ecc_of o)); assumption).
    destruct (anomaly_inj o Hp (Mof o (o_t0 o)) (Mof o' (o_t0 o'))) as [y ME].
    { rewrite (proj1 (th_cosf o Hp (o_t0 o))), EE, (proj1 (th_cosf o' Hp' (o_t0 o'))), T1, T1', TS, CE, SE. reflexivity. }
    { rewrite (proj2 (th_cosf o Hp (o_t0 o))), EE, (proj2 (th_cosf o' Hp' (o_t0 o'))), T1, T1', TS, CE, SE. reflexivity. }
    assert (MM : Mof o t = Mof o' t + IZR (y - z) * (2 * PI)).
    { rewrite (Mof_t0 o), (Mof_t0 o' t), ME, SH, minus_IZR, opp_IZR. ring. }
    assert (Ab := eo_abs o Hp). change (eo o) with (ecc_of o) in Ab. unfold thc. rewrite CE, SE, MM, kepler_cosf_period, kepler_sinf_period by exact Ab. rewrite EE. reflexivity.
Qed.
End T.
