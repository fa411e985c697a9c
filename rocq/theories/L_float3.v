(** * Proofs: the attributes of an orbit with rounding errors, continued *)
From Coq Require Import Reals Lra Lia Psatz Bool List.
From Coquelicot Require Import Rcomplements.
From Verif Require Import Num CoreOps Inst M_units M_kepler Spec_orbit Spec_params Spec_float L_real L_orbit L_float L_float2.
Open Scope R_scope.

Section V.
Variable u : R.
Variable rd : rounder.
Hypothesis Acc : accurate u rd.
Let v := u / (1 - u).
Let U := proj1 Acc.
Notation N := (rounded rd).
Ltac simF := cbn [nlit nadd nsub nmul ndiv nneg nsqrt nsin ncos nasin nacos natan2 nexp nlog
  nabs nfloor nmod npowr nkepler_sin nkepler_cos nzl npadr nsqz nlt nle nband nsw rounded npw] in *.
Ltac aps := lazymatch goal with
  | |- ap _ _ (rd _ _ _ _) _ => eapply (rd_ap u rd Acc); aps
  | |- ap _ _ (_ * _) _ => eapply (ap_mul u); aps
  | |- ap _ _ (_ / _) _ => eapply (ap_div u); aps
  | |- _ => apply (ap_refl u)
  end.

Lemma v_u : 0 <= u /\ 0 <= v /\ 99 * v <= 100 * u.
Proof.
  destruct (v_bounds u U) as [V1 V2]. assert (U' := U). fold v in V1, V2. repeat split; try lra.
  assert (K : v * (1 - u) = u) by (unfold v; field; lra). nra.
Qed.
Lemma off_u n x y c : 0 < y -> ap v n x y -> 100 / 99 * n <= c -> off x y <= u * c.
Proof.
  intros Hy H L. assert (K := off_ap u _ _ _ Hy H). fold v in K. destruct v_u as (A & B & C). destruct (Rle_dec 0 n) as [h|h]; [nra|].
  assert (0 <= n * v) by (eapply Rle_trans; [apply Rabs_pos|exact K]). destruct (Req_dec v 0) as [z|z].
  - rewrite z, Rmult_0_r in K. assert (u = 0). { assert (V := v_bounds u U). fold v in V. lra. } rewrite H1. lra.
  - nra.
Qed.
Lemma close_ap n x y : ap v n x y -> n * v <= 1 / 9 -> Rabs (x - y) <= 9 / 8 * (n * v) * Rabs y.
Proof.
  intros (d & -> & H) L. replace (y * exp d - y) with ((exp d - 1) * y) by ring. rewrite Rabs_mult. apply Rmult_le_compat_r; [apply Rabs_pos|].
  set (w := n * v) in *. assert (B : - w <= d <= w) by (unfold Rabs in H; destruct (Rcase_abs d); lra). assert (W : 0 <= w) by lra.
  assert (E1 := exp_ineq1_le d). assert (E2 := exp_ineq1_le (- d)). rewrite exp_Ropp in E2. assert (P := exp_pos d).
  assert (E3 : exp d * (1 - d) <= 1). { apply (Rmult_le_compat_l (exp d)) in E2; [|lra]. rewrite Rinv_r in E2 by lra. lra. }
  apply Rabs_le. split; [lra|]. assert (E4 : exp d * (1 - w) <= 1) by nra.
  destruct (Rle_dec (exp d - 1) (9 / 8 * w)) as [h|h]; [exact h|exfalso]. apply Rnot_le_lt in h. assert (0 < (exp d - 1 - 9 / 8 * w) * (1 - w)) by (apply Rmult_lt_0_compat; lra). nra.
Qed.

Lemma Ok_eq {A} (x y : A) : Ok x = Ok y -> x = y.
Proof. intro H. injection H as H. exact H. Qed.

Lemma attributes k : consts_ok k -> forall x o, @kep_init R bool N k x = Ok o -> sizes o -> nearly_consistent k u o.
Proof.
  intros kok x o H (Ha & Hp & Hr & Hm & Hmp). unfold kep_init in H. inv_bind H. destruct v0 as [mp rho]. inv_bind H. destruct v0 as [[[a0 r0] dur] dadt]. inv_bind H.
  destruct v0 as [[[[[a P] RHO] RS] MS] MP]. inv_bind H. rename v0 into ed. inv_bind H. destruct v0 as [[[b ci] inc] durattr]. inv_bind H. destruct v0 as [t0 tper].
  apply Ok_eq in H. subst o. cbn [o_a o_period o_r_star o_m_star o_m_planet] in Ha, Hp, Hr, Hm, Hmp.
  destruct (ci_float u rd Acc k kok _ _ _ _ _ _ _ _ _ _ _ _ E1 Ha Hp Hr Hm Hmp) as [K3 RH]. fold v in K3, RH. clear E3 E2 E1 E0 E.
  assert (HG := ok_G _ kok). assert (Hg := consts_gcc_pos k kok). assert (Hpi := PI_pos). assert (LA := Rabs_pos (ln a)). assert (LR := Rabs_pos (ln RS)).
  assert (Mt : 0 < MS + MP) by lra. assert (Ht : ap v 1 (rd OAdd MS MP (MS + MP)) (MS + MP)). { eapply (ap_le u rd Acc); [aps|lra]. }
  assert (Hu : 0 < rd OAdd MS MP (MS + MP)) by (apply (proj2 (ap_pos u _ _ _ Ht)); exact Mt).
  assert (Hn : ap v 4 (rd ODiv (rd OMul (rd OLit 2 0 2) (rd OLit PI 0 PI) (rd OLit 2 0 2 * rd OLit PI 0 PI)) P (rd OMul (rd OLit 2 0 2) (rd OLit PI 0 PI) (rd OLit 2 0 2 * rd OLit PI 0 PI) / P)) (2 * PI / P)).
  { eapply (ap_le u rd Acc); [aps|lra]. }
  constructor; cbn [o_a o_period o_rho_star o_r_star o_m_star o_m_planet o_m_total o_n o_a_star o_a_planet o_K0 o_ecc o_dcosidb o_t0 o_tper o_tref]; simF.
  - eapply off_u; [|exact K3|lra]. repeat apply Rmult_lt_0_compat; assumption.
  - eapply off_u; [|exact RH|lra]. nra.
  - eapply off_u; [|exact Ht|lra]. lra.
  - assert (A := ap_mul u _ _ _ _ _ _ Hn (ap_refl u P)). eapply off_u; [|eapply (ap_eq u); [exact A|reflexivity|field; lra]|lra]. lra.
  - generalize dependent (rd OAdd MS MP (MS + MP)). intros mt K3 Ht Hu. 
    match goal with |- off (- ?X * _) _ <= _ => assert (A : ap v 2 X (- a * MS / mt)) by (eapply (ap_le u rd Acc); [aps|lra]) end.
    assert (B := ap_mul u _ _ _ _ _ _ (ap_neg u _ _ _ A) (ap_refl u mt)). eapply off_u; [|eapply (ap_eq u); [exact B|reflexivity|field; lra]|lra]. nra.
  - intro Hq. generalize dependent (rd OAdd MS MP (MS + MP)). intros mt K3 Ht Hu. 
    match goal with |- off (?X * _) _ <= _ => assert (A : ap v 2 X (a * MP / mt)) by (eapply (ap_le u rd Acc); [aps|lra]) end.
    assert (B := ap_mul u _ _ _ _ _ _ A (ap_refl u mt)). eapply off_u; [|eapply (ap_eq u); [exact B|reflexivity|field; lra]|lra]. nra.
  - intros ->. rewrite Rmult_0_r, (rd_zero u rd Acc). unfold Rdiv. rewrite Rmult_0_l. apply (rd_zero u rd Acc).
  - intros ->. generalize dependent (rd OAdd MS MP (MS + MP)). intros mt K3 Ht Hu.
    match type of Hn with ap _ _ ?X _ => assert (Pn : 0 < X) by (apply (proj2 (ap_pos u _ _ _ Hn)); apply Rdiv_lt_0_compat; lra); generalize dependent X end.
    intros n E4' Hn Pn. match goal with |- off (?X * _) _ <= _ => assert (A : ap v 2 X (n * a / mt)) by (eapply (ap_le u rd Acc); [aps|lra]) end.
    assert (B := ap_mul u _ _ _ _ _ _ A (ap_refl u mt)). eapply off_u; [|eapply (ap_eq u); [exact B|reflexivity|field; lra]|lra]. nra.
  - intros ->. match goal with |- off (?X * _) _ <= _ => assert (A : ap v 3 X (1 * RS / a)) by (eapply (ap_le u rd Acc); [aps|lra]) end.
    assert (B := ap_mul u _ _ _ _ _ _ A (ap_refl u a)). eapply off_u; [|eapply (ap_eq u); [exact B|reflexivity|field; lra]|lra]. lra.
  - intros ->. unfold kep_times in E4. simF.
    assert (Hq : forall q, ap v 9 q (P / 4) -> 0 < q /\ Rabs (q - P / 4) <= 103 / 400 * 10 * u * P).
    { intros q A. split; [apply (proj2 (ap_pos u _ _ _ A)); lra|]. destruct v_u as (V0 & V1 & V2). assert (B := v_bounds u U). fold v in B. assert (C := close_ap _ _ _ A ltac:(lra)). rewrite (Rabs_pos_eq (P / 4)) in C by lra. nra. }
    rewrite !Rplus_0_r in E4.
    match type of E4 with context [rd ODiv (rd OAdd ?A ?Z ?S) ?B ?Q] => assert (Aq : ap v 9 (rd ODiv (rd OAdd A Z S) B Q) (0.5 * PI / (2 * PI / P))) by (eapply (ap_le u rd Acc); [aps|lra]); revert E4 Aq; generalize (rd ODiv (rd OAdd A Z S) B Q) end.
    intros q E4 Aq. replace (0.5 * PI / (2 * PI / P)) with (P / 4) in Aq by (replace 0.5 with (1 / 2) by lra; field; repeat split; lra). destruct (Hq q Aq) as [Pq Dq]. destruct v_u as (V0 & _). assert (U' := U).
    apply Rabs_le_between in Dq. assert (Q3 : q <= 3 / 10 * P) by nra. assert (G : forall s y z, Rabs (y - (s + z)) <= u * Rabs (s + z) -> z = q \/ z = - q -> Rabs (y - (s + z)) <= u * (Rabs s + 3 / 10 * P)).
    { intros s y z K Hz. eapply Rle_trans; [exact K|]. apply Rmult_le_compat_l; [lra|]. eapply Rle_trans; [apply Rabs_triang|]. apply Rplus_le_compat_l. destruct Hz as [-> | ->]; [|rewrite Rabs_Ropp]; rewrite Rabs_pos_eq by lra; exact Q3. }
    destruct (ka_t0 x) as [s|], (ka_tper x) as [p|]; try discriminate E4; injection E4 as <- <-.
    + assert (K := G s _ (- q) (proj2 Acc OSub s q (s - q)) (or_intror eq_refl)). set (y := rd OSub s q (s - q)) in *. clearbody y. assert (A1 := Rabs_pos y). apply Rabs_le_between in K. apply Rabs_le. nra.
    + assert (K := G p _ q (proj2 Acc OAdd p q (p + q)) (or_introl eq_refl)). set (y := rd OAdd p q (p + q)) in *. clearbody y. assert (A1 := Rabs_pos y). apply Rabs_le_between in K. apply Rabs_le. nra.
    + assert (K := G 0 _ (- q) (proj2 Acc OSub 0 q (0 - q)) (or_intror eq_refl)). set (y := rd OSub 0 q (0 - q)) in *. clearbody y. assert (A1 := Rabs_pos y). apply Rabs_le_between in K. rewrite Rabs_R0 in *. apply Rabs_le. nra.
  - apply (proj2 Acc).
Qed.
End V.
