(** * Examples for arithmetic with rounding errors *)
From Coq Require Import Reals Lra Lia Psatz Bool List ZArith.
From Coquelicot Require Import Rcomplements.
From Flocq Require Import Core Relative.
From Verif Require Import Num CoreOps Inst M_units M_kepler Spec_orbit Spec_params Spec_float L_real L_kepop L_orbit L_float L_float2 L_float3 L_float4 L_float5 L_float6 Ex_orbit.
Open Scope R_scope.

(** IEEE double precision, rounding to the nearest and ties to even, as far as
    the exponent is in range; adding zero is exact *)
Definition nearest (r : R) : R := round radix2 (FLX_exp 53) ZnearestE r.
Definition double : rounder := fun op x y r => match op with OAdd => if Req_EM_T y 0 then r else nearest r | _ => nearest r end.
Definition half_ulp : R := / 2 * bpow radix2 (-53 + 1).

Lemma half_ulp_small : 0 < half_ulp <= / 1000000.
Proof. unfold half_ulp. cbn -[Rinv Rmult IZR]. split; [apply Rmult_lt_0_compat; [lra|apply Rinv_0_lt_compat; lra]|]. rewrite <- Rinv_mult. apply Rinv_le_contravar; lra. Qed.
Lemma double_ok : accurate half_ulp double /\ exact_zero double.
Proof.
  assert (S := half_ulp_small). assert (A : forall r, Rabs (nearest r - r) <= half_ulp * Rabs r).
  { intro r. apply (relative_error_N_FLX radix2 53 eq_refl (fun x => negb (Z.even x)) r). }
  assert (B : forall r, Rabs (r - r) <= half_ulp * Rabs r). { intro r. rewrite Rminus_eq_0, Rabs_R0. apply Rmult_le_pos; [lra|apply Rabs_pos]. }
  split; [split; [lra|]|].
  - intros op x y r. destruct op; try apply A. cbn. destruct (Req_EM_T y 0); [apply B|apply A].
  - intro x. cbn. destruct (Req_EM_T 0 0); [reflexivity|lra].
Qed.

Section V.
Variable u : R.
Variable rd : rounder.
Hypothesis Acc : accurate u rd.
Hypothesis Small : u <= / 1000000.
Let v := u / (1 - u).
Let U := proj1 Acc.
Ltac aps := lazymatch goal with
  | |- ap _ _ (rd _ _ _ _) _ => eapply (rd_ap u rd Acc); aps
  | |- ap _ _ (_ * _) _ => eapply (ap_mul u); aps
  | |- ap _ _ (_ / _) _ => eapply (ap_div u); aps
  | |- _ => apply (ap_refl u)
  end.
Lemma rd_abs op a b r B : Rabs r <= B -> Rabs (rd op a b r) <= 101 / 100 * B.
Proof.
  intro H. assert (U' := U). destruct (rd_close u rd Acc op a b r r 0 B) as [_ K]; [rewrite Rminus_eq_0, Rabs_R0; lra|exact H|]. assert (P := Rabs_pos r). nra.
Qed.
Lemma ecc_float : exists o, @kep_init R bool (rounded rd) ek ex_ecc_args = Ok o /\ sizes o /\ Rabs (o_cos_incl o) <= 1 + u /\
  forall t, Rabs t <= 100 -> u * slack o * (6 + 8 * (slack o ^ 3 * swing o t)) <= 1 / 10.
Proof.
  assert (U' := U). assert (Hpi := PI_pos). assert (P4 := PI_4). assert (P3 := PI2_3_2). assert (HG := ok_G _ ek_ok).
  assert (S1 : ap v 1 (rd OLit 1 0 1) 1) by (eapply (ap_le u rd Acc); [aps|lra]). assert (P1 : 0 < rd OLit 1 0 1) by (apply (proj2 (ap_pos u _ _ _ S1)); lra).
  eexists. split; [reflexivity|]. set (one := rd OLit 1 0 1) in *. split; [|split].
  - unfold sizes. cbn [o_a o_period o_r_star o_m_star o_m_planet]. cbn [npowr ndiv nmul nadd nlit npw rounded qv plain]. fold one. repeat split; try lra; try exact P1.
    match goal with |- 0 < rd OPow ?a ?b (Rpowr ?X (rd OLit ?c ?d _)) => refine (proj1 (pow_third u rd Acc a b c d X _)) end.
    clearbody one. assert (Hm : 0 < one + 1 / 2) by lra. assert (Am : ap v 1 (rd OAdd one (1 / 2) (one + 1 / 2)) (one + 1 / 2)) by (eapply (ap_le u rd Acc); [aps|lra]).
    assert (Pm : 0 < rd OAdd one (1 / 2) (one + 1 / 2)) by (apply (proj2 (ap_pos u _ _ _ Am)); exact Hm). generalize dependent (rd OAdd one (1 / 2) (one + 1 / 2)). intros mt _ Pm.
    match goal with |- 0 < ?X => assert (A : ap v 20 X (G_grav ek * mt * (10 * 10) / (4 * (PI * PI)))) by (eapply (ap_le u rd Acc); [aps|lra]); apply (proj2 (ap_pos u _ _ _ A)) end.
    apply Rdiv_lt_0_compat; [apply Rmult_lt_0_compat; [apply Rmult_lt_0_compat; assumption|lra]|nra].
  - cbn [o_cos_incl]. apply (rd_trig u rd Acc OCos), cos_le.
  - intros t Ht. match goal with |- context [swing ?O t] => set (o := O) in * end.
    assert (Sl : slack o = / (1 - 3 / 10)) by reflexivity. assert (Sl2 : slack o <= 143 / 100) by (rewrite Sl; replace (1 - 3 / 10) with (/ (10 / 7)) by lra; rewrite Rinv_inv; lra).
    assert (Sl1 : 0 < slack o) by (rewrite Sl; apply Rinv_0_lt_compat; lra). assert (Sl3 : slack o ^ 3 <= 3). { replace 3 with (3 * 1) by ring. assert (slack o * slack o <= 205 / 100) by nra. replace (slack o ^ 3) with (slack o * slack o * slack o) by ring. nra. }
    assert (A : ap v 4 (o_n o) (2 * PI / 10)). { unfold o. cbn [o_n]. cbn [ndiv nmul nlit rounded]. eapply (ap_le u rd Acc); [aps|lra]. }
    assert (V := v_u u rd Acc). assert (V2 := v_bounds u U). fold v in V, V2. assert (C := close_ap u _ _ _ A ltac:(fold v; lra)). fold v in C. rewrite (Rabs_pos_eq (2 * PI / 10)) in C by lra.
    assert (Vs : v <= 2 / 1000000) by lra.
    assert (Bn : 1 / 2 <= o_n o <= 9 / 10). { assert (9 / 8 * (4 * v) * (2 * PI / 10) <= 1 / 100) by nra. apply Rabs_le_between in C. lra. }
    assert (T0 : o_t0 o = 2) by reflexivity.
    assert (M0 : Rabs (o_M0 o) <= 9).
    { unfold o. cbn [o_M0]. unfold kep_M0. cbn [nsub nmul nadd nsqrt nsin natan2 nlit rounded e_ecc e_sinw e_cosw].
      match goal with |- context [rd OAtan2 ?y ?x (Ratan2 ?y ?x)] => assert (Ba : Rabs (rd OAtan2 y x (Ratan2 y x)) <= 101 / 100 * 4) by (apply rd_abs, Rabs_le; assert (K := Ratan2_bounds y x); lra); generalize dependent (rd OAtan2 y x (Ratan2 y x)) end.
      intros at2 Ba. assert (B2 : Rabs (rd OLit 2 0 2) <= 101 / 100 * 2) by (apply rd_abs; rewrite Rabs_pos_eq; lra). generalize dependent (rd OLit 2 0 2). intros two B2.
      assert (B3 : Rabs (rd OMul two at2 (two * at2)) <= 101 / 100 * (101 / 100 * 2 * (101 / 100 * 4))) by (apply rd_abs; rewrite Rabs_mult; apply Rmult_le_compat; try apply Rabs_pos; assumption).
      generalize dependent (rd OMul two at2 (two * at2)). intros E0 B3. assert (B4 : Rabs (rd OSin E0 0 (sin E0)) <= 101 / 100 * 1) by (apply rd_abs, sin_le). generalize dependent (rd OSin E0 0 (sin E0)). intros sE B4.
      assert (B5 : Rabs (rd OMul (3 / 10) sE (3 / 10 * sE)) <= 101 / 100 * (3 / 10 * (101 / 100 * 1))) by (apply rd_abs; rewrite Rabs_mult, (Rabs_pos_eq (3 / 10)) by lra; apply Rmult_le_compat_l; lra).
      generalize dependent (rd OMul (3 / 10) sE (3 / 10 * sE)). intros es B5. eapply Rle_trans; [apply (rd_abs _ _ _ _ (86 / 10))|lra]. unfold Rminus. eapply Rle_trans; [apply Rabs_triang|]. rewrite Rabs_Ropp. lra. }
    assert (Ep : o_tper o = rd OSub 2 (rd ODiv (o_M0 o) (o_n o) (o_M0 o / o_n o)) (2 - rd ODiv (o_M0 o) (o_n o) (o_M0 o / o_n o))) by reflexivity.
    assert (Er : o_tref o = rd OSub (o_tper o) 2 (o_tper o - 2)) by reflexivity.
    assert (Q1 : Rabs (rd ODiv (o_M0 o) (o_n o) (o_M0 o / o_n o)) <= 101 / 100 * 18).
    { apply rd_abs. unfold Rdiv. rewrite Rabs_mult, Rabs_inv, (Rabs_pos_eq (o_n o)) by lra. apply (Rmult_le_reg_r (o_n o)); [lra|]. rewrite Rmult_assoc, Rinv_l by lra. lra. }
    assert (Q2 : Rabs (o_tper o) <= 101 / 100 * 21). { rewrite Ep. apply rd_abs. unfold Rminus. eapply Rle_trans; [apply Rabs_triang|]. rewrite Rabs_Ropp, (Rabs_pos_eq 2) by lra. lra. }
    assert (Q3 : Rabs (o_tref o) <= 101 / 100 * 24). { rewrite Er. apply rd_abs. unfold Rminus. eapply Rle_trans; [apply Rabs_triang|]. rewrite Rabs_Ropp, (Rabs_pos_eq 2) by lra. lra. }
    assert (Hw : 0 <= swing o t <= 130).
    { unfold swing. rewrite T0. assert (Rabs (t - 2) <= 102) by (unfold Rminus; eapply Rle_trans; [apply Rabs_triang|]; rewrite Rabs_Ropp, (Rabs_pos_eq 2) by lra; lra). assert (Z1 := Rabs_pos (t - 2)). assert (Z2 := Rabs_pos (o_tref o)). nra. }
    assert (0 < slack o ^ 3) by (apply pow_lt; exact Sl1). assert (slack o ^ 3 * swing o t <= 390) by nra. assert (u * slack o <= 2 / 1000000) by nra. assert (0 <= u * slack o) by nra. assert (0 <= slack o ^ 3 * swing o t) by nra. nra.
Qed.
Lemma circ_float : exists o, @kep_init R bool (rounded rd) ek ex_circ_args = Ok o /\ sizes o /\ Rabs (o_cos_incl o) <= 1 + u.
Proof.
  assert (U' := U). assert (Hpi := PI_pos). assert (HG := ok_G _ ek_ok).
  assert (S1 : ap v 1 (rd OLit 1 0 1) 1) by (eapply (ap_le u rd Acc); [aps|lra]). assert (P1 : 0 < rd OLit 1 0 1) by (apply (proj2 (ap_pos u _ _ _ S1)); lra).
  eexists. split; [reflexivity|]. set (one := rd OLit 1 0 1) in *. split.
  - unfold sizes. cbn [o_a o_period o_r_star o_m_star o_m_planet]. cbn [npowr ndiv nmul nadd nlit npw rounded qv plain]. fold one. repeat split; try lra; try exact P1.
    match goal with |- 0 < rd OPow ?a ?b (Rpowr ?X (rd OLit ?c ?d _)) => refine (proj1 (pow_third u rd Acc a b c d X _)) end.
    clearbody one. assert (Hm : 0 < one + 1 / 2) by lra. assert (Am : ap v 1 (rd OAdd one (1 / 2) (one + 1 / 2)) (one + 1 / 2)) by (eapply (ap_le u rd Acc); [aps|lra]).
    assert (Pm : 0 < rd OAdd one (1 / 2) (one + 1 / 2)) by (apply (proj2 (ap_pos u _ _ _ Am)); exact Hm). generalize dependent (rd OAdd one (1 / 2) (one + 1 / 2)). intros mt _ Pm.
    match goal with |- 0 < ?X => assert (A : ap v 20 X (G_grav ek * mt * (10 * 10) / (4 * (PI * PI)))) by (eapply (ap_le u rd Acc); [aps|lra]); apply (proj2 (ap_pos u _ _ _ A)) end.
    apply Rdiv_lt_0_compat; [apply Rmult_lt_0_compat; [apply Rmult_lt_0_compat; assumption|lra]|nra].
  - cbn [o_cos_incl]. cbn [nmul rounded]. match goal with |- Rabs (rd OMul ?a ?b (?x * ?y)) <= _ => assert (Z1 := proj2 Acc OMul a b (x * y)); replace (x * y) with 0 in * by ring end. rewrite Rminus_0_r, Rabs_R0, Rmult_0_r in Z1. lra.
Qed.
End V.
Lemma float_example : exists o, consts_ok ek /\ accurate half_ulp double /\ exact_zero double /\ @kep_init R bool (rounded double) ek ex_ecc_args = Ok o /\ sizes o /\
  Rabs (o_cos_incl o) <= 1 + half_ulp /\ (forall e, ka_ecc ex_ecc_args = Some e -> 0 <= e < 1) /\
  (forall s, ka_sin_omega ex_ecc_args = Some s -> Rabs s <= 1) /\ (forall c, ka_cos_omega ex_ecc_args = Some c -> Rabs c <= 1) /\
  half_ulp * slack o * (6 + 8 * (slack o ^ 3 * swing o 50)) <= 1 / 10.
Proof.
  destruct double_ok as [A B]. destruct (ecc_float half_ulp double A (proj2 half_ulp_small)) as (o & H & S & C & D). exists o.
  split; [exact ek_ok|]. split; [exact A|]. split; [exact B|]. split; [exact H|]. split; [exact S|]. split; [exact C|].
  split; [intros e E; injection E as <-; lra|]. split; [intros s E; discriminate E|]. split; [intros s E; discriminate E|]. apply D. rewrite Rabs_pos_eq; lra.
Qed.
Lemma circ_example : exists o, consts_ok ek /\ accurate half_ulp double /\ @kep_init R bool (rounded double) ek ex_circ_args = Ok o /\ sizes o /\
  Rabs (o_cos_incl o) <= 1 + half_ulp /\ ka_ecc ex_circ_args = None /\ ka_Omega ex_circ_args = None.
Proof.
  destruct double_ok as [A _]. destruct (circ_float half_ulp double A) as (o & H & S & C). exists o.
  split; [exact ek_ok|]. split; [exact A|]. split; [exact H|]. split; [exact S|]. split; [exact C|]. split; reflexivity.
Qed.
