(** * Rounding errors of light curves: how far a planet is from its star *)
From Coq Require Import Reals Lra Lia Psatz Bool List Arith ZArith.
From Coquelicot Require Import Coquelicot.
From Verif Require Import Num CoreOps Inst CoreFlux M_units M_kepler M_fin M_tensor M_simple M_limbdark Spec_orbit Spec_params Spec_array Spec_light Spec_lip Spec_float Spec_float2 Spec_float3 Spec_float5 Spec_float6
  L_real L_kepop L_orbit L_light1 L_lip2 L_lip3 L_dist3 L_float L_float2 L_float3 L_float4 L_float5 L_float6 L_float17 L_float20.
Import ListNotations.
Local Notation length := List.length.
Open Scope R_scope.

Section V.
Variable u : R.
Variable rd : rounder.
Hypothesis Acc : accurate u rd.
Let U := proj1 Acc.
Local Notation NR := (rounded rd).

Lemma rd_sq op a b r : 98 / 100 * (r * r) <= rd op a b r * rd op a b r.
Proof.
  assert (H := proj2 Acc op a b r). assert (U' := U). set (v := rd op a b r) in *. clearbody v.
  assert (A : 99 / 100 * Rabs r <= Rabs v). { assert (K := Rabs_triang_inv r v). rewrite Rabs_minus_sym in K. assert (R0 := Rabs_pos r). nra. }
  assert (E1 : r * r = Rabs r * Rabs r) by (rewrite <- Rabs_mult, Rabs_pos_eq by apply Rle_0_sqr; reflexivity).
  assert (E2 : v * v = Rabs v * Rabs v) by (rewrite <- Rabs_mult, Rabs_pos_eq by apply Rle_0_sqr; reflexivity). rewrite E1, E2. assert (R0 := Rabs_pos r). nra.
Qed.
Lemma rd_unit w : 9 / 10 <= rd OCos w 0 (cos w) * rd OCos w 0 (cos w) + rd OSin w 0 (sin w) * rd OSin w 0 (sin w).
Proof. assert (A := rd_sq OCos w 0 (cos w)). assert (B := rd_sq OSin w 0 (sin w)). assert (C := sin2_cos2 w). unfold Rsqr in C. lra. Qed.

(** the constructor's sines and cosines fit together *)
Lemma init_node k x o : @kep_init R bool NR k x = Ok o -> forall w, o_Omega o = Some w -> 9 / 10 <= O_cos w * O_cos w + O_sin w * O_sin w.
Proof.
  intros H. unfold kep_init in H. inv_bind H. destruct v as [mp rho]. inv_bind H. destruct v as [[[a0 r0] dur] dadt]. inv_bind H.
  destruct v as [[[[[a P] RHO] RS] MS] MP]. inv_bind H. inv_bind H. destruct v0 as [[[b ci] inc] durattr]. inv_bind H. destruct v0 as [t0 tper].
  apply Ok_eq in H. subst o. cbn [o_Omega]. clear - Acc U. destruct (ka_Omega x) as [w0|]; intros w H; [|discriminate]. injection H as <-. cbn [O_cos O_sin]. apply rd_unit.
Qed.
Lemma init_periastron k x o : @kep_init R bool NR k x = Ok o -> (forall s c, ka_sin_omega x = Some s -> ka_cos_omega x = Some c -> 9 / 10 <= s * s + c * c) ->
  forall d, o_ecc o = Some d -> 9 / 10 <= e_cosw d * e_cosw d + e_sinw d * e_sinw d.
Proof.
  intros H K. unfold kep_init in H. inv_bind H. destruct v as [mp rho]. inv_bind H. destruct v as [[[a0 r0] dur] dadt]. inv_bind H.
  destruct v as [[[[[a P] RHO] RS] MS] MP]. inv_bind H. inv_bind H. destruct v0 as [[[b ci] inc] durattr]. inv_bind H. destruct v0 as [t0 tper].
  apply Ok_eq in H. subst o. cbn [o_ecc]. clear - E2 K Acc U. intros d ->. unfold kep_omega in E2.
  destruct (ka_ecc x) as [e|]; [|discriminate]. destruct (ka_omega x) as [w|].
  - destruct (_ && _); [discriminate|]. injection E2 as <-. cbn [e_ecc e_cosw e_sinw]. apply rd_unit.
  - destruct (ka_sin_omega x) as [s|], (ka_cos_omega x) as [c|]; try discriminate. injection E2 as <-. cbn [e_ecc e_cosw e_sinw]. assert (K1 := K s c eq_refl eq_refl). lra.
Qed.

Lemma acos_unit ci : 4 / 5 <= ci * ci + rd OSin (rd OAcos ci 0 (acos ci)) 0 (sin (rd OAcos ci 0 (acos ci))) * rd OSin (rd OAcos ci 0 (acos ci)) 0 (sin (rd OAcos ci 0 (acos ci))).
Proof.
  set (i := rd OAcos ci 0 (acos ci)). assert (U' := U). assert (S2 := Rle_0_sqr (rd OSin i 0 (sin i))). unfold Rsqr in S2. destruct (Rle_dec (ci * ci) 1) as [h|h]; [|lra].
  assert (Hc : -1 <= ci <= 1) by nra. assert (Hi := proj2 Acc OAcos ci 0 (acos ci)). fold i in Hi. assert (B := acos_bound ci). assert (P4 := PI_4).
  rewrite (Rabs_pos_eq (acos ci)) in Hi by lra. assert (Hd : Rabs (i - acos ci) <= 4 / 100) by nra. assert (L := sin_lipschitz i (acos ci)).
  assert (Cs := cos_acos ci Hc). assert (Sc := sin2_cos2 (acos ci)). unfold Rsqr in Sc. rewrite Cs in Sc.
  assert (Hs := proj2 Acc OSin i 0 (sin i)). assert (B1 := sin_le i). set (s := rd OSin i 0 (sin i)) in *. clearbody s.
  assert (D : Rabs (s - sin (acos ci)) <= 5 / 100). { replace (s - sin (acos ci)) with ((s - sin i) + (sin i - sin (acos ci))) by ring. eapply Rle_trans; [apply Rabs_triang|]. assert (Z := Rabs_pos (sin i)). nra. }
  set (s0 := sin (acos ci)) in *. clearbody s0. assert (S0 : -1 <= s0 <= 1) by nra. assert (D' := Rabs_le_between (s - s0) (5/100)). destruct D' as [D' _]. specialize (D' D). nra.
Qed.

Lemma half_turn i : Rabs (i - PI / 2) <= 91 / 1000 -> 4 / 5 <= rd OSin i 0 (sin i) * rd OSin i 0 (sin i).
Proof.
  intro H. assert (L := sin_lipschitz i (PI / 2)). rewrite sin_PI2 in L. assert (L' := Rabs_le_between (sin i - 1) (91 / 1000)). destruct L' as [L' _]. specialize (L' (Rle_trans _ _ _ L H)). assert (A := rd_sq OSin i 0 (sin i)). nra.
Qed.
Lemma init_inclination k x o : @kep_init R bool NR k x = Ok o -> 4 / 5 <= o_cos_incl o * o_cos_incl o + o_sin_incl o * o_sin_incl o.
Proof.
  intros H. unfold kep_init in H. inv_bind H. destruct v as [mp rho]. inv_bind H. destruct v as [[[a0 r0] dur] dadt]. inv_bind H.
  destruct v as [[[[[a P] RHO] RS] MS] MP]. inv_bind H. inv_bind H. destruct v0 as [[[b ci] inc] durattr]. inv_bind H. destruct v0 as [t0 tper].
  apply Ok_eq in H. subst o. cbn [o_cos_incl o_sin_incl]. clear - E3 Acc U. unfold kep_incl in E3.
  destruct (ka_b x) as [b'|].
  { destruct (_ || _); [discriminate|]. apply Ok_eq in E3. injection E3 as <- <- <- <-. apply acos_unit. }
  destruct (ka_incl x) as [i|].
  { destruct (negb _); [discriminate|]. apply Ok_eq in E3. injection E3 as <- <- <- <-. assert (K := rd_unit i). cbn [ncos nsin rounded]. lra. }
  destruct dur as [q|].
  { destruct v as [d|]; [|discriminate]. inv_bind E3. apply Ok_eq in E3. cbv zeta in E3. match type of E3 with context [@ecc_duration_b ?a ?b ?c ?d ?e ?f ?g ?h ?i] => set (bb := @ecc_duration_b a b c d e f g h i) in E3 end. clearbody bb. injection E3 as <- <- <- <-. apply acos_unit. }
  apply Ok_eq in E3. injection E3 as <- <- <- <-. cbn [nsin nadd nmul nlit nzl rounded].
  match goal with |- context [rd OSin ?I 0 (sin ?I)] => set (i := I) end. rewrite Rmult_0_l, Rplus_0_l. apply half_turn.
  assert (U' := U). assert (V : u / (1 - u) <= 1 / 99). { apply (Rmult_le_reg_r (1 - u)); [lra|]. replace (u / (1 - u) * (1 - u)) with u by (field; lra). lra. }
  assert (A : ap (u / (1 - u)) 4 i (PI / 2)).
  { replace (PI / 2) with (0.5 * PI + 0) by lra. unfold i. eapply (ap_le u rd Acc); [eapply (rd_ap u rd Acc); rewrite !Rplus_0_r; eapply (rd_ap u rd Acc); eapply (ap_mul u); eapply (rd_ap u rd Acc); apply (ap_refl u)|lra]. }
  assert (P4 := PI_4). assert (P0 := PI_RGT_0). eapply Rle_trans; [apply (close_ap u _ _ _ A); lra|]. rewrite (Rabs_pos_eq (PI / 2)) by lra.
  assert (V0 : 0 <= u / (1 - u)) by (apply Rdiv_le_0_compat; lra). set (vv := u / (1 - u)) in *. clearbody vv. nra.
Qed.

(** the exact position *)
Lemma exact_distance k o t : 0 < o_a o -> oriented u o ->
  4 / 5 <= o_cos_incl o * o_cos_incl o + o_sin_incl o * o_sin_incl o ->
  (forall d, o_ecc o = Some d -> 9 / 10 <= e_cosw d * e_cosw d + e_sinw d * e_sinw d) ->
  (forall w, o_Omega o = Some w -> 9 / 10 <= O_cos w * O_cos w + O_sin w * O_sin w) ->
  let p := @get_relative_position R bool NumR k o (@kep_warp R bool NumR o) t None false in
  16 / 25 * (o_a o / slack o * (o_a o / slack o)) <= vx p * vx p + vy p * vy p + vz p * vz p.
Proof.
  intros Ha Ho HI HE HO. cbv zeta.
  assert (Rot : forall X Y L, 0 <= L -> L <= X * X + Y * Y -> let v := @rotate_vector R bool NumR o X Y in 16 / 25 * L <= vx v * vx v + vy v * vy v + vz v * vz v).
  { intros X Y L L0 HL. cbv zeta. unfold rotate_vector.
    assert (K : forall x1 y1, 9 / 10 * L <= x1 * x1 + y1 * y1 ->
      let v := (let x2 := x1 in let y2 := o_cos_incl o * y1 in let z := - o_sin_incl o * y1 in match o_Omega o with None => (x2, y2, z) | Some w => (O_cos w * x2 - O_sin w * y2, O_sin w * x2 + O_cos w * y2, z) end) in
      16 / 25 * L <= vx v * vx v + vy v * vy v + vz v * vz v).
    { intros x1 y1 H1. cbv zeta. set (ci := o_cos_incl o) in *. set (si := o_sin_incl o) in *. assert (X0 := Rle_0_sqr x1). assert (Y0 := Rle_0_sqr y1). unfold Rsqr in *.
      assert (M := Rmult_le_compat_r (y1 * y1) _ _ Y0 HI). assert (C0 := Rle_0_sqr (ci * y1)). assert (S0 := Rle_0_sqr (si * y1)). unfold Rsqr in *.
      destruct (o_Omega o) as [w|]; unfold vx, vy, vz; cbn [fst snd].
      - assert (HW := HO w eq_refl). set (c := O_cos w) in *. set (s := O_sin w) in *.
        replace ((c * x1 - s * (ci * y1)) * (c * x1 - s * (ci * y1)) + (s * x1 + c * (ci * y1)) * (s * x1 + c * (ci * y1)) + - si * y1 * (- si * y1)) with ((c * c + s * s) * (x1 * x1 + ci * y1 * (ci * y1)) + si * y1 * (si * y1)) by ring.
        assert (Q : 9 / 10 * (x1 * x1 + ci * y1 * (ci * y1)) <= (c * c + s * s) * (x1 * x1 + ci * y1 * (ci * y1))) by (apply Rmult_le_compat_r; lra). lra.
      - lra. }
    destruct (o_ecc o) as [d|].
    - apply K. assert (W := HE d eq_refl). set (c := e_cosw d) in *. set (s := e_sinw d) in *. cbn [nmul nsub nadd NumR].
      replace ((c * X - s * Y) * (c * X - s * Y) + (s * X + c * Y) * (s * X + c * Y)) with ((c * c + s * s) * (X * X + Y * Y)) by ring.
      assert (9 / 10 * (X * X + Y * Y) <= (c * c + s * s) * (X * X + Y * Y)) by (apply Rmult_le_compat_r; lra). lra.
    - apply K. lra. }
  unfold get_relative_position, get_position, position_nodelay.
  assert (TA : forall s c, @true_anomaly R bool NumR o (@kep_warp R bool NumR o) true t = (s, c) -> s * s + c * c = 1).
  { intros s c. unfold true_anomaly. destruct (o_ecc o) as [d|] eqn:Ee; intro H; injection H as <- <-.
    - apply kepler_unit. destruct (Ho d Ee) as (He & _). rewrite Rplus_0_r || idtac. apply Rabs_def1; cbn; lra.
    - cbn [nsin ncos NumR]. assert (C := sin2_cos2 ((@kep_warp R bool NumR o true t - o_tref o) * o_n o)). unfold Rsqr in C. exact C. }
  destruct (@true_anomaly R bool NumR o (@kep_warp R bool NumR o) true t) as [s c]. specialize (TA s c eq_refl).
  unfold slack in *. destruct (o_ecc o) as [d|] eqn:Ee.
  - destruct (Ho d Ee) as (He & _). set (e := e_ecc d) in *. assert (Bc : -1 <= c <= 1) by nra. assert (Dn : 1 - e <= 1 + e * c) by nra.
    match goal with |- context [@rotate_vector R bool NumR o ?X ?Y] => assert (Q := Rot X Y (o_a o / / (1 - e) * (o_a o / / (1 - e))) (Rle_0_sqr _)); destruct (@rotate_vector R bool NumR o X Y) as [[v1 v2] v3] end.
    apply Q. clear Q.
    match goal with |- _ <= ?X * ?X + _ => replace X with (- o_a o * (1 - e * e) / (1 + e * c) * c) by (cbn; field; lra) end.
    match goal with |- _ <= _ + ?X * ?X => replace X with (- o_a o * (1 - e * e) / (1 + e * c) * s) by (cbn; field; lra) end.
    set (r := o_a o * (1 - e)). replace (o_a o / / (1 - e)) with r by (unfold r; field; lra).
    replace (- o_a o * (1 - e * e) / (1 + e * c)) with (- (r * ((1 + e) / (1 + e * c)))) by (unfold r; field; lra). set (q := (1 + e) / (1 + e * c)).
    assert (Q1 : 1 <= q). { unfold q. apply (Rmult_le_reg_r (1 + e * c)); [lra|]. replace ((1 + e) / (1 + e * c) * (1 + e * c)) with (1 + e) by (field; lra). nra. }
    replace (- (r * q) * c * (- (r * q) * c) + - (r * q) * s * (- (r * q) * s)) with (r * r * (q * q) * (s * s + c * c)) by ring. rewrite TA, Rmult_1_r.
    assert (R2 := Rle_0_sqr r). unfold Rsqr in R2. assert (Q2 : 1 <= q * q) by nra. nra.
  - match goal with |- context [@rotate_vector R bool NumR o ?X ?Y] => assert (Q := Rot X Y (o_a o / / (1 - 0) * (o_a o / / (1 - 0))) (Rle_0_sqr _)); destruct (@rotate_vector R bool NumR o X Y) as [[v1 v2] v3] end.
    apply Q. cbn [nneg nmul NumR]. replace (o_a o / / (1 - 0)) with (o_a o) by field. replace (- o_a o * c * (- o_a o * c) + - o_a o * s * (- o_a o * s)) with (o_a o * o_a o * (s * s + c * c)) by ring. rewrite TA. lra.
Qed.
End V.
