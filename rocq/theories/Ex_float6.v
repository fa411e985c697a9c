(** * Examples for C119 *)
From Coq Require Import Reals List Bool Arith ZArith Lra Lia Psatz.
From Coquelicot Require Import Coquelicot.
From Verif Require Import Num CoreOps Inst CoreFlux M_units M_kepler M_fin M_tensor M_limbdark M_simple Spec_orbit Spec_params Spec_array Spec_light Spec_simple Spec_dist Spec_lip Spec_accuracy Spec_float Spec_float2 Spec_float3 Spec_float5 Spec_float6
  L_real L_fl L_flux L_light1 L_dist3 L_kepop L_orbit L_float L_float2 L_float3 L_float4 L_float6 Ex_orbit Ex_accuracy Ex_compose Ex_lip L_simple2 Ex_float Ex_float2 Ex_float4 Ex_float5 L_float33.
Import ListNotations.
Local Notation length := List.length.
Open Scope R_scope.

(** an eccentric orbit of 10 days, with a semi-major axis of 20 solar radii *)
Definition ex_wide_args : kargs R :=
  {| ka_period := Some (plain 10); ka_a := Some (plain 20); ka_t0 := Some 2; ka_tper := None;
     ka_incl := Some (3 / 2); ka_b := None; ka_duration := None; ka_ecc := Some (3 / 10);
     ka_omega := Some 1; ka_sin_omega := None; ka_cos_omega := None; ka_Omega := Some (7 / 10);
     ka_m_planet := None; ka_m_star := None; ka_r_star := None;
     ka_rho_star := None; ka_ror := None; ka_m_planet_units := None; ka_rho_star_units := None |}.
(** its arguments as arrays *)
Definition ex_wide_arrays : kargs tens := map_args scalar ex_wide_args.

Section V.
Variable u : R.
Variable rd : rounder.
Hypothesis Acc : accurate u rd.
Hypothesis Small : u <= / 1000000.
Let v := u / (1 - u).
Let U := proj1 Acc.
Ltac aps := lazymatch goal with
  | |- ap _ _ (rd _ _ _ _) _ => eapply (rd_ap u rd Acc); aps
  | |- ap _ _ (_ * _) _ => eapply (ap_mul u); aps
  | |- ap _ _ (_ / _) _ => eapply (ap_div u); aps
  | |- _ => apply (ap_refl u)
  end.
Lemma wide_float : exists o, @kep_init R bool (rounded rd) ek ex_wide_args = Ok o /\ sizes o /\ Rabs (o_cos_incl o) <= 1 + u /\
  o_a o = 20 /\ o_r_star o = rd OLit 1 0 1 /\ 0 < slack o <= 143 / 100 /\ 0 < slack o ^ 3 <= 3 /\ 0 <= o_n o <= 9 / 10 /\ forall t, Rabs t <= 100 -> 0 <= swing o t <= 130.
Proof.
  assert (U' := U). assert (Hpi := PI_pos). assert (P4 := PI_4). assert (P3 := PI2_3_2). assert (HG := ok_G _ ek_ok).
  assert (S1 : ap v 1 (rd OLit 1 0 1) 1) by (eapply (ap_le u rd Acc); [aps|lra]). assert (P1 : 0 < rd OLit 1 0 1) by (apply (proj2 (ap_pos u _ _ _ S1)); lra).
  eexists. split; [reflexivity|]. set (one := rd OLit 1 0 1) in *. split; [|split].
  - unfold sizes. cbn [o_a o_period o_r_star o_m_star o_m_planet]. cbn [npowr ndiv nmul nsub nadd nlit npw rounded qv plain]. fold one. repeat split; try lra; try exact P1.
    all: try (cbn; lra).
    match goal with |- 0 < rd OSub ?a ?b (?X - ?Y) => assert (A : ap v 30 (rd OSub a b (X - Y)) (4 * PI * PI * (20 * (20 * 20)) / (G_grav ek * (10 * 10)))) end.
    { cbn [nzl rounded]. rewrite Rminus_0_r. eapply (ap_le u rd Acc); [aps|lra]. }
    apply (proj2 (ap_pos u _ _ _ A)). apply Rdiv_lt_0_compat; [|nra]. assert (0 < PI * PI) by nra. nra.
  - cbn [o_cos_incl]. apply (rd_trig u rd Acc OCos), cos_le.
  - split; [reflexivity|]. split; [reflexivity|]. match goal with |- 0 < slack ?O <= _ /\ _ => set (o := O) in * end.
    assert (Sl : slack o = / (1 - 3 / 10)) by reflexivity. assert (Sl2 : slack o <= 143 / 100) by (rewrite Sl; replace (1 - 3 / 10) with (/ (10 / 7)) by lra; rewrite Rinv_inv; lra).
    assert (Sl1 : 0 < slack o) by (rewrite Sl; apply Rinv_0_lt_compat; lra). assert (Sl3 : slack o ^ 3 <= 3). { replace 3 with (3 * 1) by ring. assert (slack o * slack o <= 205 / 100) by nra. replace (slack o ^ 3) with (slack o * slack o * slack o) by ring. nra. }
    assert (A : ap v 4 (o_n o) (2 * PI / 10)). { unfold o. cbn [o_n]. cbn [ndiv nmul nlit rounded]. eapply (ap_le u rd Acc); [aps|lra]. }
    assert (V := v_u u rd Acc). assert (V2 := v_bounds u U). fold v in V, V2. assert (C := close_ap u _ _ _ A ltac:(fold v; lra)). fold v in C. rewrite (Rabs_pos_eq (2 * PI / 10)) in C by lra.
    assert (Vs : v <= 2 / 1000000) by lra.
    assert (Bn : 1 / 2 <= o_n o <= 9 / 10). { assert (9 / 8 * (4 * v) * (2 * PI / 10) <= 1 / 100) by nra. apply Rabs_le_between in C. lra. }
    assert (T0 : o_t0 o = 2) by reflexivity.
    assert (M0 : Rabs (o_M0 o) <= 9).
    { unfold o. cbn [o_M0]. unfold kep_M0. cbn [nsub nmul nadd nsqrt nsin natan2 nlit rounded e_ecc e_sinw e_cosw].
      match goal with |- context [rd OAtan2 ?y ?x (Ratan2 ?y ?x)] => assert (Ba : Rabs (rd OAtan2 y x (Ratan2 y x)) <= 101 / 100 * 4) by (apply (rd_abs u rd Acc), Rabs_le; assert (K := Ratan2_bounds y x); lra); generalize dependent (rd OAtan2 y x (Ratan2 y x)) end.
      intros at2 Ba. assert (B2 : Rabs (rd OLit 2 0 2) <= 101 / 100 * 2) by (apply (rd_abs u rd Acc); rewrite Rabs_pos_eq; lra). generalize dependent (rd OLit 2 0 2). intros two B2.
      assert (B3 : Rabs (rd OMul two at2 (two * at2)) <= 101 / 100 * (101 / 100 * 2 * (101 / 100 * 4))) by (apply (rd_abs u rd Acc); rewrite Rabs_mult; apply Rmult_le_compat; try apply Rabs_pos; assumption).
      generalize dependent (rd OMul two at2 (two * at2)). intros E0 B3. assert (B4 : Rabs (rd OSin E0 0 (sin E0)) <= 101 / 100 * 1) by (apply (rd_abs u rd Acc), sin_le). generalize dependent (rd OSin E0 0 (sin E0)). intros sE B4.
      assert (B5 : Rabs (rd OMul (3 / 10) sE (3 / 10 * sE)) <= 101 / 100 * (3 / 10 * (101 / 100 * 1))) by (apply (rd_abs u rd Acc); rewrite Rabs_mult, (Rabs_pos_eq (3 / 10)) by lra; apply Rmult_le_compat_l; lra).
      generalize dependent (rd OMul (3 / 10) sE (3 / 10 * sE)). intros es B5. eapply Rle_trans; [apply (rd_abs u rd Acc _ _ _ _ (86 / 10))|lra]. unfold Rminus. eapply Rle_trans; [apply Rabs_triang|]. rewrite Rabs_Ropp. lra. }
    assert (Ep : o_tper o = rd OSub 2 (rd ODiv (o_M0 o) (o_n o) (o_M0 o / o_n o)) (2 - rd ODiv (o_M0 o) (o_n o) (o_M0 o / o_n o))) by reflexivity.
    assert (Er : o_tref o = rd OSub (o_tper o) 2 (o_tper o - 2)) by reflexivity.
    assert (Q1 : Rabs (rd ODiv (o_M0 o) (o_n o) (o_M0 o / o_n o)) <= 101 / 100 * 18).
    { apply (rd_abs u rd Acc). unfold Rdiv. rewrite Rabs_mult, Rabs_inv, (Rabs_pos_eq (o_n o)) by lra. apply (Rmult_le_reg_r (o_n o)); [lra|]. rewrite Rmult_assoc, Rinv_l by lra. lra. }
    assert (Q2 : Rabs (o_tper o) <= 101 / 100 * 21). { rewrite Ep. apply (rd_abs u rd Acc). unfold Rminus. eapply Rle_trans; [apply Rabs_triang|]. rewrite Rabs_Ropp, (Rabs_pos_eq 2) by lra. lra. }
    assert (Q3 : Rabs (o_tref o) <= 101 / 100 * 24). { rewrite Er. apply (rd_abs u rd Acc). unfold Rminus. eapply Rle_trans; [apply Rabs_triang|]. rewrite Rabs_Ropp, (Rabs_pos_eq 2) by lra. lra. }
    split; [lra|]. split; [split; [apply pow_lt; exact Sl1|exact Sl3]|]. split; [lra|]. intros t Ht.
    assert (Hw : 0 <= swing o t <= 130).
    { unfold swing. rewrite T0. assert (Rabs (t - 2) <= 102) by (unfold Rminus; eapply Rle_trans; [apply Rabs_triang|]; rewrite Rabs_Ropp, (Rabs_pos_eq 2) by lra; lra). assert (Z1 := Rabs_pos (t - 2)). assert (Z2 := Rabs_pos (o_tref o)). nra. }
    exact Hw.
Qed.
End V.

Lemma wide_arrays : machine_args half_ulp 1 ex_wide_arrays (fun _ => ex_wide_args).
Proof.
  assert (P : forall v, per_planet 1 (scalar v)). { intro v. split; [|left; reflexivity]. intros i i' Hi. reflexivity. }
  split.
  - split; cbn; try exact I; try apply P. right. split; reflexivity.
  - reflexivity.
  - reflexivity.
  - intros j e _ He. injection He as <-. rewrite half_ulp_is. lra.
Qed.

(** double precision, up to a hundred days from time zero: better than 1e-8 of the star's flux *)
Lemma kfloat_example : accurate half_ulp double /\ exact_zero double /\ solves 0 fsolution /\ physical_law (intensity (3 / 10) (2 / 10)) /\ consts_ok ek /\
  elements 1 (scalar (1 / 10)) (fun _ => 1 / 10) /\ is_vector 3 (vector 3 INR) /\ (forall m, (m < 3)%nat -> aget (vector 3 INR) (at_time m) = Fin (INR m)) /\
  exposures 3 (scalar (1 / 4)) (fun _ => 1 / 4) /\ (exists nodes weights, stencil 7 0 = Ok (nodes, weights)) /\
  machine_args half_ulp 1 ex_wide_arrays (fun _ => ex_wide_args) /\
  exists o O, machine_orbit half_ulp double ek ex_wide_args o /\ @kep_init tens btens (rounded_tens double) ek ex_wide_arrays = Ok O /\ array_orbit 1 O (fun _ => o) /\ o_r_star o = 1 /\
    forall t, Rabs t <= 100 -> far_enough half_ulp o (1 / 10) t /\ (forall e, 0 <= e <= 1 -> far_exposed half_ulp o (1 / 10) t e) /\
      flux_error half_ulp 0 + distance_error half_ulp (1 / 10 / o_r_star o) (2 * motion_error half_ulp o t / o_r_star o) <= / 10 ^ 8.
Proof.
  destruct lfloat_example as (A1 & _ & A3 & A4 & _ & _ & A5 & _ & _ & A6 & A7 & A8 & A9 & _). assert (HU : half_ulp = / 9007199254740992) by exact half_ulp_is.
  split; [exact A1|]. split; [exact (proj2 double_ok)|]. split; [exact A3|]. split; [exact A4|]. split; [exact ek_ok|]. split; [exact A5|]. split; [exact A6|]. split; [exact A7|]. split; [exact A8|]. split; [exact A9|]. split; [exact wide_arrays|].
  destruct (wide_float half_ulp double A1 ltac:(rewrite HU; lra)) as (o & I & Sz & Ic & Ha & Hr & S1 & S3 & Hn & Hw).
  assert (MO : machine_orbit half_ulp double ek ex_wide_args o). { split; try assumption; cbn; try discriminate. intros e He. injection He as <-. lra. }
  destruct (constructor_float half_ulp double A1 ek ek_ok 1 ex_wide_arrays (fun _ => ex_wide_args) (fun _ => o) ltac:(lia) wide_arrays ltac:(intros j Hj; split; [exact MO|discriminate])) as (OO & EO & AO).
  exists o, OO. split; [exact MO|]. split; [exact EO|]. split; [exact AO|]. assert (R1 : o_r_star o = 1) by (rewrite Hr; apply (proj1 double_one)). split; [exact R1|].
  intros t Ht. specialize (Hw t Ht). clear MO EO AO I Sz Ic Hr A1 A3 A4 A5 A6 A7 A8 A9. unfold far_enough, far_exposed, motion_error, exposure_error, distance_error, flux_error. rewrite R1, Ha.
  assert (Sw : 0 <= slack o ^ 3 * swing o t <= 390) by nra. set (s := slack o) in *. set (w := swing o t) in *.
  assert (Q : 11 <= 4 / 5 * (20 / s)) by (clear - S1; assert (1 / (143 / 100) <= 1 / s) by (unfold Rdiv; rewrite !Rmult_1_l; apply Rinv_le_contravar; lra); unfold Rdiv in *; lra).
  assert (X1 : 0 <= s * (s ^ 3 * w) <= 143 / 100 * 390) by nra.
  split; [|split].
  - split; [rewrite HU; nra|]. rewrite HU; nra.
  - intros e He. set (sh := time_shift half_ulp t e). assert (Sh : 0 <= sh <= 1 / 10 ^ 13). { unfold sh, time_shift. rewrite HU, (Rabs_pos_eq e) by lra. assert (K := Rabs_pos t). lra. }
    assert (Xs : exposure_swing half_ulp o t e <= 131 /\ 0 <= exposure_swing half_ulp o t e). { unfold exposure_swing. fold w sh. rewrite (Rabs_pos_eq e) by lra. nra. }
    set (xs := exposure_swing _ _ _ _) in *. assert (Y : 0 <= s ^ 3 * xs <= 393) by nra. set (y := s ^ 3 * xs) in *. clearbody y. set (n := o_n o) in *. clearbody n sh s.
    assert (Z1 : 0 <= s * y <= 143 / 100 * 393) by nra. assert (Z2 : 0 <= n * sh <= 1 / 10 ^ 13) by nra. assert (Z3 : 0 <= s * (n * sh) <= 143 / 100 * (1 / 10 ^ 13)) by (split; [nra|apply Rmult_le_compat; lra]).
    split; rewrite HU; [|replace (20 * s * n * sh) with (20 * (s * (n * sh))) by ring]; nra.
  - rewrite HU. replace (1 / 10 / 1) with (1 / 10) by field. match goal with |- context [2 * ?x / 1] => replace (2 * x / 1) with (2 * x) by field end. nra.
Qed.
