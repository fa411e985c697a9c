(** * Lemmas about the orbit constructor at R *)
From Coq Require Import Reals Lra Lia ZArith Bool List.
From Coquelicot Require Import Coquelicot.
From Verif Require Import Num CoreOps Inst M_units M_kepler L_real L_kepop Spec_orbit.
Open Scope R_scope.

Ltac simR := cbn [nlit nadd nsub nmul ndiv nneg nsqrt nsin ncos nasin nacos natan2 nexp nlog
  nabs nfloor nmod npowr nkepler_sin nkepler_cos nzl npadr nsqz nlt nle nband nsw NumR npw] in *.

Ltac inv_bind H :=
  match type of H with
  | rbind ?e _ = Ok _ =>
      let v := fresh "v" in let E := fresh "E" in
      destruct e as [v|] eqn:E; cbn [rbind] in H; [|discriminate H]
  end.

Lemma consts_gcc_pos k : consts_ok k -> 0 < gcc_per_sun k.
Proof.
  intros [h1 h2 h3 h4 h5 h6 h7 h8 h9]. rewrite h9. apply Rdiv_lt_0_compat; auto.
  apply Rdiv_lt_0_compat; auto. apply pow_lt; auto.
Qed.

Lemma PI_pos : 0 < PI. Proof. apply PI_RGT_0. Qed.

Lemma Rpowr_third x : 0 < x -> Rpowr x (1/3) * Rpowr x (1/3) * Rpowr x (1/3) = x.
Proof.
  intros Hx. unfold Rpowr. destruct (Rlt_dec 0 x); [|lra].
  rewrite <- !Rpower_plus. replace (1 / 3 + 1 / 3 + 1 / 3) with 1 by field. apply Rpower_1; auto.
Qed.
Lemma Rpowr_pos x y : 0 < x -> 0 < Rpowr x y.
Proof. intros Hx. unfold Rpowr. destruct (Rlt_dec 0 x); [|lra]. unfold Rpower. apply exp_pos. Qed.
Lemma Rpowr_32 x : 0 < x -> Rpowr x (3/2) * Rpowr x (3/2) = x * (x * x).
Proof.
  intros Hx. unfold Rpowr. destruct (Rlt_dec 0 x); [|lra].
  rewrite <- Rpower_plus. replace (3 / 2 + 3 / 2) with (INR 3) by (simpl; field).
  rewrite Rpower_pow by auto. ring.
Qed.
Lemma Rpowr_third_nonpos x : x <= 0 -> Rpowr x (1/3) = 0.
Proof. intros. unfold Rpowr. destruct (Rlt_dec 0 x); [lra|]. destruct (Req_EM_T (1/3) 0); [lra|auto]. Qed.

(** cube root of a cube *)
Lemma cube_inj x y : 0 < x -> 0 < y -> x * x * x = y * y * y -> x = y.
Proof.
  intros Hx Hy H. assert ((x - y) * (x * x + x * y + y * y) = 0) by (ring_simplify; lra).
  apply Rmult_integral in H0. destruct H0; [lra|]. nra.
Qed.
Lemma Rpowr_cube x : 0 < x -> Rpowr (x * x * x) (1/3) = x.
Proof.
  intros Hx. assert (0 < x * x * x) by (repeat apply Rmult_lt_0_compat; auto).
  apply cube_inj; auto. apply Rpowr_pos; auto. apply Rpowr_third; auto.
Qed.

Section C.
Variable k : consts.
Hypothesis kok : consts_ok k.

(** Inversion of consistent_inputs into its nine successful shapes would be
    long; what is needed are the two defining relations. *)
Lemma ci_relations a p rho r m mp A P RHO RS MS MP :
  consistent_inputs k a p rho r m mp = Ok (A, P, RHO, RS, MS, MP) ->
  0 < A -> 0 < P -> 0 < RS -> 0 < MS + MP ->
  G_grav k * (MS + MP) * (P * P) = 4 * (PI * PI) * (A * A * A) /\
  RHO * (4 * PI * (RS * RS * RS)) = 3 * MS * gcc_per_sun k.
Proof.
  assert (HG := ok_G _ kok). assert (Hg := consts_gcc_pos k kok). assert (Hpi := PI_pos).
  unfold consistent_inputs. intros H HA HP HR HM.
  destruct (is_none a && is_none p) eqn:Hn; [discriminate|].
  inv_bind H. inv_bind H. inv_bind H. inv_bind H.
  destruct v2 as [[rho' rs'] ms'].
  assert (Hpow : forall x, 0 < x -> 0 < x * (x * x)) by
    (intros; repeat apply Rmult_lt_0_compat; auto).
  destruct v0 as [av|], v1 as [pv|]; simR.
  - (* both *)
    destruct (negb (is_none rho) || negb (is_none m)); [discriminate|].
    inv_bind E2. inversion E2; subst; clear E2. inversion H; subst; clear H.
    assert (RS <> 0) by lra. assert (P <> 0) by lra.
    split; field; repeat split; try lra.
  - (* a only *)
    destruct (negb (_ =? _)%nat) eqn:Hc in E2; [discriminate|].
    inv_bind E2. inv_bind E2. inv_bind E2.
    inversion H; subst; clear H.
    set (mp' := match v with Some m0 => m0 | None => 0 end) in *.
    split.
    + replace (2 * PI * Rpowr A (3 / 2) / sqrt (G_grav k * (MS + mp')) *
               (2 * PI * Rpowr A (3 / 2) / sqrt (G_grav k * (MS + mp'))))
        with (4 * (PI * PI) * (Rpowr A (3/2) * Rpowr A (3/2))
              / (sqrt (G_grav k * (MS + mp')) * sqrt (G_grav k * (MS + mp')))).
      2:{ field. apply Rgt_not_eq, sqrt_lt_R0. nra. }
      rewrite Rpowr_32 by auto. rewrite sqr_sqrt by nra. field. split; lra.
    + destruct v0 as [x0|], v1 as [x1|], v2 as [x2|]; try discriminate E2;
        inversion E2; subst; clear E2.
      * field.
      * assert (Hb : 0 < 3 * MS / (4 * PI * rho')).
        { destruct (Rlt_dec 0 (3 * MS / (4 * PI * rho'))); auto.
          rewrite Rpowr_third_nonpos in HR by lra. lra. }
        rewrite Rpowr_third by auto. field.
        split; [|lra]. intros h. rewrite h in Hb. unfold Rdiv in Hb.
        rewrite Rmult_0_r, Rinv_0, Rmult_0_r in Hb. lra.
      * field. split; lra.
  - (* period only *)
    destruct (negb (_ =? _)%nat) eqn:Hc in E2; [discriminate|].
    inv_bind E2. inv_bind E2. inv_bind E2.
    inversion H; subst; clear H.
    set (mp' := match v with Some m0 => m0 | None => 0 end) in *.
    split.
    + assert (0 < G_grav k * (MS + mp') * (P * P) / (4 * (PI * PI))).
      { apply Rdiv_lt_0_compat; [|nra]. apply Rmult_lt_0_compat; nra. }
      rewrite Rpowr_third by auto. field. lra.
    + destruct v0 as [x0|], v1 as [x1|], v2 as [x2|]; try discriminate E2;
        inversion E2; subst; clear E2.
      * field.
      * assert (Hb : 0 < 3 * MS / (4 * PI * rho')).
        { destruct (Rlt_dec 0 (3 * MS / (4 * PI * rho'))); auto.
          rewrite Rpowr_third_nonpos in HR by lra. lra. }
        rewrite Rpowr_third by auto. field.
        split; [|lra]. intros h. rewrite h in Hb. unfold Rdiv in Hb.
        rewrite Rmult_0_r, Rinv_0, Rmult_0_r in Hb. lra.
      * field. split; lra.
  - discriminate.
Qed.

(** All relations between the attributes of an orbit *)
Record orbit_facts (x : kargs R) (o : orbit R) : Prop := {
  of_mtot : o_m_total o = o_m_star o + o_m_planet o;
  of_n : o_n o = 2 * PI / o_period o;
  of_a_star : o_a_star o = o_a o * o_m_planet o / o_m_total o;
  of_a_planet : o_a_planet o = - o_a o * o_m_star o / o_m_total o;
  of_K0 : o_K0 o = o_n o * o_a o / o_m_total o / sqrt (1 - ecc_of o * ecc_of o);
  of_kepler3 : G_grav k * o_m_total o * (o_period o * o_period o)
               = 4 * (PI * PI) * (o_a o * o_a o * o_a o);
  of_rho : o_rho_star o * (4 * PI * (o_r_star o * o_r_star o * o_r_star o))
           = 3 * o_m_star o * gcc_per_sun k;
  of_dcosidb : o_dcosidb o =
     (1 + ecc_of o * sinw_of o) / (1 - ecc_of o * ecc_of o) * o_r_star o / o_a o;
  of_cosi_b : o_cos_incl o = o_dcosidb o * o_b o;
  of_cosi : o_cos_incl o = cos (o_incl o);
  of_sini : o_sin_incl o = sin (o_incl o);
  of_tref : o_tref o = o_tper o - o_t0 o;
  of_t0 : o_t0 o = o_tper o + o_M0 o / o_n o;
  of_M0_circ : o_ecc o = None -> o_M0 o = PI / 2;
  of_M0_ecc : forall d, o_ecc o = Some d -> o_M0 o = kep_M0 d;
  of_Omega : forall w, o_Omega o = Some w ->
     O_cos w = cos (O_Omega w) /\ O_sin w = sin (O_Omega w);
  of_omega : forall d, o_ecc o = Some d ->
     e_cosw d = cos (e_omega d) /\ e_sinw d = sin (e_omega d)
}.

Lemma kep_init_facts x o : kep_init k x = Ok o -> physical o -> orbit_facts x o.
Proof.
  intros H ph. assert (Hpi := PI_pos).
  unfold kep_init in H. inv_bind H. destruct v as [mpl rho].
  inv_bind H. destruct v as [[[a rs] dur] dao].
  inv_bind H. destruct v as [[[[[A P] RHO] RS] MS] MP].
  inv_bind H. rename v into ed.
  inv_bind H. destruct v as [[[b ci] inc] durattr].
  inv_bind H. destruct v as [t0 tp].
  inversion H; subst o; clear H.
  destruct ph as [pa pp pr pm pmp pmt pci pe po]. cbn in pa, pp, pr, pm, pmp, pmt, pci, pe, po.
  destruct (ci_relations _ _ _ _ _ _ _ _ _ _ _ _ E1 pa pp pr pmt) as [K3 RH].
  assert (He : forall d, ed = Some d -> 0 < 1 - e_ecc d * e_ecc d).
  { intros d Hd. specialize (pe d Hd). nra. }
  assert (Hf : forall d, ed = Some d -> 0 < 1 + e_ecc d * e_sinw d).
  { intros d Hd. specialize (pe d Hd). specialize (po d Hd).
    assert (-1 <= e_sinw d <= 1) by nra.
    assert (Rabs (e_ecc d) < 1) by (rewrite Rabs_pos_eq; lra).
    generalize (eprod_bound _ _ H0 H). lra. }
  constructor; cbn; unfold ecc_of, sinw_of, cosw_of; cbn; simR; auto.
  - destruct ed; simR; [reflexivity|]. rewrite Rmult_0_l, Rminus_0_r, sqrt_1. field. lra.
  - destruct ed as [d|]; simR; [reflexivity|]. field. lra.
  - (* cos_incl = dcosidb * b *)
    revert E3. unfold kep_incl. simR.
    destruct (ka_b x) as [b0|].
    { destruct (_ || _); [discriminate|]. intros H; inversion H; subst. reflexivity. }
    destruct (ka_incl x) as [i0|].
    { destruct (negb _); [discriminate|]. intros H; inversion H; subst; clear H.
      destruct ed as [d|]; simR.
      - field. specialize (He d eq_refl). specialize (Hf d eq_refl). repeat split; lra.
      - field. lra. }
    destruct dur as [q|].
    { destruct ed as [d|]; [|discriminate]. destruct (to_unit q (u_day k)); [|discriminate].
      intros H; inversion H; subst. reflexivity. }
    intros H; inversion H; subst. ring.
  - (* cos_incl = cos incl *)
    revert E3. unfold kep_incl. simR.
    destruct (ka_b x) as [b0|].
    { destruct (_ || _); [discriminate|]. intros H; inversion H; subst.
      rewrite cos_acos; auto. }
    destruct (ka_incl x) as [i0|].
    { destruct (negb _); [discriminate|]. intros H; inversion H; subst; reflexivity. }
    destruct dur as [q|].
    { destruct ed as [d|]; [|discriminate]. destruct (to_unit q (u_day k)); [|discriminate].
      intros H; inversion H; subst. rewrite cos_acos; auto. }
    intros H; inversion H; subst.
    replace (0.5 * PI + 0) with (PI / 2) by lra. rewrite cos_PI2. reflexivity.
  - revert E4. unfold kep_times. simR.
    destruct (ka_t0 x), (ka_tper x); intros H; inversion H; subst; ring.
  - intros ->. simR. lra.
  - intros d ->. reflexivity.
  - intros w. destruct (ka_Omega x); intros H; inversion H; subst; cbn. auto.
  - intros d Hd. specialize (po d Hd). subst ed. revert E2. unfold kep_omega.
    destruct (ka_ecc x); [|discriminate].
    destruct (ka_omega x).
    { destruct (_ && _); [discriminate|]. intros H; inversion H; subst; cbn. auto. }
    destruct (ka_sin_omega x), (ka_cos_omega x); try discriminate.
    intros H; inversion H; subst; cbn in *.
    destruct (unit_vector_angle _ _ po) as [-> ->]. auto.
Qed.
End C.
