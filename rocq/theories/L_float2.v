(** * Proofs: the attributes of an orbit with rounding errors *)
From Coq Require Import Reals Lra Lia Psatz Bool List.
From Verif Require Import Num CoreOps Inst M_units M_kepler Spec_orbit Spec_params Spec_float L_real L_orbit L_float.
Open Scope R_scope.

Section V.
Variable u : R.
Variable rd : rounder.
Hypothesis Acc : accurate u rd.
Let v := u / (1 - u).
Let U := proj1 Acc.

Lemma rd_ap op a b n x y : ap v n x y -> ap v (n + 1) (rd op a b x) y.
Proof. intro H. apply (ap_round u U n x y); [apply (proj2 Acc)|exact H]. Qed.

(** powers with a rounded exponent *)
Lemma pow_third a b a' b' x : 0 < x -> let r := rd OPow a b (Rpowr x (rd OLit a' b' (1 / 3))) in 0 < r /\ ap v (4 + 3 * Rabs (ln r)) (r * r * r) x.
Proof.
  intros Px r. destruct (v_bounds u U) as [V1 V2]. fold v in V1, V2. assert (U' := U). set (c := rd OLit a' b' (1 / 3)) in *.
  assert (Hc : Rabs (c - 1 / 3) <= u * (1 / 3)). { assert (K := proj2 Acc OLit a' b' (1 / 3)). rewrite (Rabs_pos_eq (1 / 3)) in K by lra. exact K. }
  assert (Bc : - (u * (1 / 3)) <= c - 1 / 3 <= u * (1 / 3)) by (unfold Rabs in Hc; destruct (Rcase_abs (c - 1 / 3)); lra).
  assert (E : Rpowr x c = exp (c * ln x)). { unfold Rpowr. destruct (Rlt_dec 0 x); [reflexivity|contradiction]. }
  assert (A : ap v (0 + 1) r (exp (c * ln x))). { apply rd_ap. rewrite E. apply ap_refl. }
  destruct A as (d & Er & Hd). rewrite <- exp_plus in Er. assert (Pr : 0 < r) by (rewrite Er; apply exp_pos). split; [exact Pr|].
  assert (Lr : ln r = c * ln x + d) by (rewrite Er, ln_exp; reflexivity).
  apply (ap_off u); [repeat apply Rmult_lt_0_compat; assumption|exact Px|]. unfold off.
  rewrite lnq by (try assumption; repeat apply Rmult_lt_0_compat; assumption). rewrite !ln_mult by (try assumption; apply Rmult_lt_0_compat; assumption).
  set (t := 3 * c - 1). assert (Ht : - u <= t <= u) by (unfold t; lra). assert (c0 : 0 < c) by lra.
  assert (Q : ln r + ln r + ln r - ln x = (ln r - d) * (t / c) + 3 * d). { rewrite Lr. unfold t. field. lra. }
  rewrite Q. assert (T : Rabs (t / c) <= 3 * v).
  { unfold Rdiv. rewrite Rabs_mult, Rabs_inv, (Rabs_pos_eq c) by lra. assert (Rabs t <= u) by (apply Rabs_le; lra).
    apply (Rmult_le_reg_r c); [exact c0|]. rewrite Rmult_assoc, Rinv_l, Rmult_1_r by lra. apply Rle_trans with u; [assumption|].
    assert (K : v * (1 - u) = u) by (unfold v; field; lra). assert (K2 : (1 - u) <= 3 * c) by (unfold t in Ht; lra). nra. }
  assert (D : Rabs d <= v) by lra. assert (T1 := Rabs_triang ((ln r - d) * (t / c)) (3 * d)). rewrite !Rabs_mult, (Rabs_pos_eq 3) in T1 by lra.
  assert (T2 : Rabs (ln r - d) <= Rabs (ln r) + v). { assert (K := Rabs_triang (ln r) (- d)). rewrite Rabs_Ropp in K. unfold Rminus. lra. }
  assert (P1 := Rabs_pos (ln r)). assert (P2 := Rabs_pos (ln r - d)). assert (P3 := Rabs_pos (t / c)). fold v. 
  assert (Rabs (ln r - d) * Rabs (t / c) <= (Rabs (ln r) + v) * (3 * v)) by (apply Rmult_le_compat; assumption). nra.
Qed.
Lemma pow_32 a b a' b' x : 0 < x -> let r := rd OPow a b (Rpowr x (rd OLit a' b' (3 / 2))) in 0 < r /\ ap v (2 + 3 * Rabs (ln x)) (r * r) (x * x * x).
Proof.
  intros Px r. destruct (v_bounds u U) as [V1 V2]. fold v in V1, V2. assert (U' := U). set (c := rd OLit a' b' (3 / 2)) in *.
  assert (Hc : Rabs (c - 3 / 2) <= u * (3 / 2)). { assert (K := proj2 Acc OLit a' b' (3 / 2)). rewrite (Rabs_pos_eq (3 / 2)) in K by lra. exact K. }
  assert (E : Rpowr x c = exp (c * ln x)). { unfold Rpowr. destruct (Rlt_dec 0 x); [reflexivity|contradiction]. }
  assert (A : ap v (0 + 1) r (exp (c * ln x))). { apply rd_ap. rewrite E. apply ap_refl. }
  destruct A as (d & Er & Hd). rewrite <- exp_plus in Er. assert (Pr : 0 < r) by (rewrite Er; apply exp_pos). split; [exact Pr|].
  assert (Lr : ln r = c * ln x + d) by (rewrite Er, ln_exp; reflexivity).
  apply (ap_off u); [repeat apply Rmult_lt_0_compat; assumption|repeat apply Rmult_lt_0_compat; assumption|]. unfold off.
  rewrite lnq by (repeat apply Rmult_lt_0_compat; assumption). rewrite !ln_mult by (try assumption; apply Rmult_lt_0_compat; assumption).
  replace (ln r + ln r - (ln x + ln x + ln x)) with (2 * (c - 3 / 2) * ln x + 2 * d) by (rewrite Lr; lra).
  assert (T1 := Rabs_triang (2 * (c - 3 / 2) * ln x) (2 * d)). rewrite !Rabs_mult, (Rabs_pos_eq 2) in T1 by lra. fold v. assert (P1 := Rabs_pos (ln x)).
  assert (Rabs (c - 3 / 2) <= v * (3 / 2)) by nra. nra.
Qed.
Lemma rd_zero op a b : rd op a b 0 = 0.
Proof.
  assert (K := proj2 Acc op a b 0). rewrite Rabs_R0, Rmult_0_r, Rminus_0_r in K. destruct (Req_dec (rd op a b 0) 0) as [E|E]; [exact E|]. assert (P := Rabs_pos_lt _ E). lra.
Qed.
Lemma pow_third_arg a b a' b' x : 0 < rd OPow a b (Rpowr x (rd OLit a' b' (1 / 3))) -> 0 < x.
Proof.
  intro H. destruct (Rlt_dec 0 x) as [h|h]; [exact h|exfalso]. unfold Rpowr in H. destruct (Rlt_dec 0 x); [contradiction|].
  assert (K := proj2 Acc OLit a' b' (1 / 3)). rewrite (Rabs_pos_eq (1 / 3)) in K by lra. assert (U' := U).
  destruct (Req_EM_T (rd OLit a' b' (1 / 3)) 0) as [E|E]; [rewrite E in K; rewrite Rminus_0_l, Rabs_Ropp, Rabs_pos_eq in K by lra; lra|]. rewrite rd_zero in H. lra.
Qed.
Lemma ap_eq n x y x' y' : ap v n x y -> x = x' -> y = y' -> ap v n x' y'.
Proof. intros H <- <-. exact H. Qed.
Lemma ap_le n m x y : ap v n x y -> n <= m -> ap v m x y.
Proof. apply (ap_weak u U). Qed.

Notation N := (rounded rd).
Ltac simF := cbn [nlit nadd nsub nmul ndiv nneg nsqrt nsin ncos nasin nacos natan2 nexp nlog
  nabs nfloor nmod npowr nkepler_sin nkepler_cos nzl npadr nsqz nlt nle nband nsw rounded npw] in *.
Ltac aps := lazymatch goal with
  | |- ap _ _ (rd _ _ _ _) _ => eapply rd_ap; aps
  | |- ap _ _ (_ * _) _ => eapply (ap_mul u); aps
  | |- ap _ _ (_ / _) _ => eapply (ap_div u); aps
  | |- _ => apply (ap_refl u)
  end.

Lemma density_float rho' r m : forall g, 0 < g -> 0 < r -> 0 < m -> forall n, ap v n rho' (3 * m / (4 * PI * (r * r * r))) ->
  ap v (n + 2) (rd OMul rho' (rd OLit g 0 g) (rho' * rd OLit g 0 g) * (4 * PI * (r * r * r))) (3 * m * g).
Proof.
  intros g Hg Hr Hm n H. assert (Hpi := PI_pos).
  assert (A : ap v (n + 1 + 1) (rd OMul rho' (rd OLit g 0 g) (rho' * rd OLit g 0 g)) (3 * m / (4 * PI * (r * r * r)) * g)).
  { apply rd_ap. eapply ap_eq; [eapply (ap_mul u) with (m := 1); [exact H|]| |reflexivity]; [|reflexivity]. eapply ap_le; [aps|lra]. }
  assert (B := ap_mul u _ _ _ _ _ _ A (ap_refl u (4 * PI * (r * r * r)))). eapply ap_eq; [eapply ap_le; [exact B|lra]|reflexivity|]. field. lra.
Qed.
Lemma star_float (rho rs ms : option R) rho' r m :
  match rho, rs, ms with
  | None, Some r, Some m => Ok (@ndiv R bool N (@nmul R bool N (@nlit R bool N 3) m) (@nmul R bool N (@nmul R bool N (@nlit R bool N 4) (@nlit R bool N PI)) (@npw R bool N r 3)), r, m)
  | Some rho, None, Some m => Ok (rho, @npowr R bool N (@ndiv R bool N (@nmul R bool N (@nlit R bool N 3) m) (@nmul R bool N (@nmul R bool N (@nlit R bool N 4) (@nlit R bool N PI)) rho)) (@nlit R bool N (1 / 3)), m)
  | Some rho, Some r, None => Ok (rho, r, @ndiv R bool N (@nmul R bool N (@nmul R bool N (@nmul R bool N (@nlit R bool N 4) (@nlit R bool N PI)) (@npw R bool N r 3)) rho) (@nlit R bool N 3))
  | _, _, _ => Err TypeErr
  end = Ok (rho', r, m) -> 0 < r -> 0 < m -> ap v (11 + 3 * Rabs (ln r)) rho' (3 * m / (4 * PI * (r * r * r))).
Proof.
  intros H Hr Hm. assert (Hpi := PI_pos). assert (L := Rabs_pos (ln r)). destruct rho as [x0|], rs as [x1|], ms as [x2|]; try discriminate H; simF; injection H as <- <- <-.
  - match goal with |- ap _ _ _ (3 * ?M / _) => assert (A : ap v 9 M (4 * PI * (x1 * (x1 * x1)) * x0 / 3)) by (eapply ap_le; [aps|lra]); generalize dependent M end.
    intros M _ A. apply ap_le with 9; [|lra]. apply (ap_sym u). assert (B := ap_mul u _ _ _ _ _ _ A (ap_refl u (3 / (4 * PI * (x1 * x1 * x1))))).
    eapply ap_eq; [eapply ap_le; [exact B|lra]| |]; field; lra.
  - destruct (Rlt_dec 0 x0) as [h|h].
    2:{ exfalso. assert (K := pow_third_arg _ _ _ _ _ Hr). match type of K with 0 < ?X => assert (A : ap v 7 X (3 * x2 / (4 * PI * x0))) by (eapply ap_le; [aps|lra]) end.
        apply (proj1 (ap_pos u _ _ _ A)) in K. destruct (Req_dec x0 0) as [z|z]. { rewrite z in K. unfold Rdiv in K. rewrite Rmult_0_r, Rinv_0, Rmult_0_r in K. lra. }
        assert (0 < / (4 * PI * x0)). { apply (Rmult_lt_reg_l (3 * x2)); [lra|]. rewrite Rmult_0_r. exact K. }
        apply Rinv_0_lt_compat in H. rewrite Rinv_inv in H. nra. }
    match goal with |- context [rd OPow _ _ (Rpowr ?X _)] => assert (A : ap v 7 X (3 * x2 / (4 * PI * x0))) by (eapply ap_le; [aps|lra]); assert (PX : 0 < X) by (apply (proj2 (ap_pos u _ _ _ A)); apply Rdiv_lt_0_compat; nra) end.
    match type of Hr with 0 < rd OPow ?a ?b (Rpowr ?X (rd OLit ?a' ?b' _)) => destruct (pow_third a b a' b' X PX) as [_ Q]; generalize dependent (rd OPow a b (Rpowr X (rd OLit a' b' (1 / 3)))); generalize dependent X end.
    intros X A _ r Hr L Q. assert (B := ap_trans u _ _ _ _ _ Q A). apply (ap_sym u). apply (ap_inv u) in B. assert (C := ap_mul u _ _ _ _ _ _ B (ap_refl u (3 * x2 / (4 * PI)))).
    eapply ap_eq; [eapply ap_le; [exact C|lra]| |]; field; lra.
  - match goal with |- ap _ _ ?X _ => assert (A : ap v 9 X (3 * x2 / (4 * PI * (x1 * (x1 * x1))))) by (eapply ap_le; [aps|lra]) end.
    eapply ap_eq; [eapply ap_le; [exact A|lra]|reflexivity|]. field. lra.
Qed.
Lemma ci_float k : consts_ok k -> forall a p rho r m mp A P RHO RS MS MP,
  @consistent_inputs R bool N k a p rho r m mp = Ok (A, P, RHO, RS, MS, MP) ->
  0 < A -> 0 < P -> 0 < RS -> 0 < MS -> 0 <= MP ->
  ap v (16 + 3 * Rabs (ln A)) (4 * (PI * PI) * (A * A * A)) (G_grav k * rd OAdd MS MP (MS + MP) * (P * P)) /\
  ap v (13 + 3 * Rabs (ln RS)) (RHO * (4 * PI * (RS * RS * RS))) (3 * MS * gcc_per_sun k).
Proof.
  intros kok a p rho r m mp A P RHO RS MS MP H HA HP HR HS HMP.
  assert (HG := ok_G _ kok). assert (Hg := consts_gcc_pos k kok). assert (Hpi := PI_pos). assert (LA := Rabs_pos (ln A)). assert (LR := Rabs_pos (ln RS)).
  unfold consistent_inputs in H. destruct (is_none a && is_none p) eqn:Hn; [discriminate|].
  inv_bind H. inv_bind H. inv_bind H. inv_bind H. destruct v3 as [[rho' rs'] ms'].
  assert (Mt : 0 < MS + MP) by lra. assert (Ht : ap v 1 (rd OAdd MS MP (MS + MP)) (MS + MP)). { eapply ap_le; [aps|lra]. }
  assert (Hu : 0 < rd OAdd MS MP (MS + MP)) by (apply (proj2 (ap_pos u _ _ _ Ht)); exact Mt).
  destruct v1 as [av|], v2 as [pv|].
  - destruct (negb (is_none rho) || negb (is_none m)); [discriminate|].
    inv_bind E2. simF. injection H as -> -> ER -> -> Em. rewrite Em in E2. injection E2 as Er -> Es. subst RHO rho'.
    match type of Es with rd OSub ?X _ _ = _ => assert (B : ap v 12 X (4 * PI * PI * (A * (A * A)) / (G_grav k * (P * P)))) by (eapply ap_le; [aps|lra]); generalize dependent X end.
    intros X Es B. rewrite Es. split.
    + assert (C : ap v 1 X (MS + MP)).
      { replace X with (X - MP + MP) by ring. apply (ap_add u); [lra|lra| |].
        - apply (ap_sym u). eapply ap_le; [eapply ap_eq; [apply rd_ap with (op := OSub) (a := X) (b := MP); apply (ap_refl u)|exact Es|reflexivity]|lra].
        - eapply ap_le; [apply (ap_refl u)|lra]. }
      assert (D := ap_mul u _ _ _ _ _ _ (ap_trans u _ _ _ _ _ (ap_trans u _ _ _ _ _ (ap_sym u _ _ _ B) C) (ap_sym u _ _ _ Ht)) (ap_refl u (G_grav k * (P * P)))).
      eapply ap_eq; [eapply ap_le; [exact D|lra]| |]; field; lra.
    + eapply ap_le; [apply density_float; [exact Hg|exact HR|exact HS|]|]. { match goal with |- ap _ _ ?X _ => assert (C : ap v 9 X (MS / (4 * PI * (RS * (RS * RS)) / 3))) by (eapply ap_le; [aps|lra]) end. eapply ap_eq; [exact C|reflexivity|]. field. lra. } lra.
  - destruct (negb (_ =? _)%nat) eqn:Hc in E2; [discriminate|]. inv_bind E2. inv_bind E2. inv_bind E2.
    injection H as -> EP ER -> -> Em. simF. apply star_float in E2; [|exact HR|exact HS].
    split. 2:{ subst RHO. eapply ap_le; [apply density_float; [exact Hg|exact HR|exact HS|exact E2]|lra]. }
    rewrite Em in EP. destruct (pow_32 A (rd OLit (3 / 2) 0 (3 / 2)) (3 / 2) 0 A HA) as [Pq Q]. revert EP Pq Q. generalize (rd OPow A (rd OLit (3 / 2) 0 (3 / 2)) (Rpowr A (rd OLit (3 / 2) 0 (3 / 2)))).
    intros q EP Pq Q. generalize dependent (rd OAdd MS MP (MS + MP)). intros mt Ht Hu EP.
    assert (Pg : 0 < G_grav k * mt) by nra. assert (Sg := sqrt_lt_R0 _ Pg). assert (B : ap v 2 (rd OMul (rd OLit (G_grav k) 0 (G_grav k)) mt (rd OLit (G_grav k) 0 (G_grav k) * mt)) (G_grav k * mt)) by (eapply ap_le; [aps|lra]).
    apply (ap_sqrt u) in B; [|lra]. apply (rd_ap OSqrt (rd OMul (rd OLit (G_grav k) 0 (G_grav k)) mt (rd OLit (G_grav k) 0 (G_grav k) * mt)) 0) in B.
    assert (C : ap v 7 P (2 * PI * q / sqrt (G_grav k * mt))). { rewrite <- EP. eapply ap_le; [apply rd_ap; eapply (ap_div u); [aps|exact B]|lra]. }
    assert (D := ap_mul u _ _ _ _ _ _ C C).
    assert (F : 2 * PI * q / sqrt (G_grav k * mt) * (2 * PI * q / sqrt (G_grav k * mt)) = 4 * (PI * PI) * (q * q) / (G_grav k * mt)).
    { rewrite <- (sqrt_sqrt (G_grav k * mt)) at 3 by lra. field. lra. }
    rewrite F in D. apply (ap_sym u) in D. apply (ap_sym u) in Q.
    assert (J := ap_mul u _ _ _ _ _ _ (ap_refl u (4 * (PI * PI))) Q). assert (J' := ap_mul u _ _ _ _ _ _ D (ap_refl u (G_grav k * mt))).
    eapply ap_eq; [eapply ap_le; [eapply (ap_trans u); [exact J|]|]|reflexivity|].
    + eapply ap_eq; [exact J'| |reflexivity]. field. lra.
    + lra.
    + ring.
  - destruct (negb (_ =? _)%nat) eqn:Hc in E2; [discriminate|]. inv_bind E2. inv_bind E2. inv_bind E2.
    injection H as EA -> ER -> -> Em. simF. apply star_float in E2; [|exact HR|exact HS].
    split. 2:{ subst RHO. eapply ap_le; [apply density_float; [exact Hg|exact HR|exact HS|exact E2]|lra]. }
    rewrite Em in EA. generalize dependent (rd OAdd MS MP (MS + MP)). intros mt EA Ht Hu. match type of EA with rd OPow _ _ (Rpowr ?X _) = _ => assert (B : ap v 10 X (G_grav k * mt * (P * P) / (4 * (PI * PI)))) by (eapply ap_le; [aps|lra]);
      assert (PX : 0 < X) by (apply (proj2 (ap_pos u _ _ _ B)); apply Rdiv_lt_0_compat; [repeat apply Rmult_lt_0_compat; assumption|nra]);
      destruct (pow_third X (rd OLit (1 / 3) 0 (1 / 3)) (1 / 3) 0 X PX) as [_ Q]; rewrite EA in Q; generalize dependent X end.
    intros X EA B _ Q. assert (J := ap_mul u _ _ _ _ _ _ (ap_refl u (4 * (PI * PI))) (ap_trans u _ _ _ _ _ Q B)).
    eapply ap_eq; [eapply ap_le; [exact J|lra]|reflexivity|]. field. lra.
  - discriminate.
Qed.
End V.
