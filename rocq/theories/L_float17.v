(** * Rounding errors of light curves *)
From Coq Require Import Reals Lra Lia Psatz Bool List Arith ZArith.
From Verif Require Import Num CoreOps Inst CoreFlux M_units M_kepler M_tensor M_limbdark Spec_orbit Spec_array Spec_light Spec_undef Spec_dist Spec_lip Spec_float Spec_float2 Spec_float3 Spec_float5
  L_real L_flux L_light1 L_light2 L_light3 L_light5 L_light7 L_lip2 L_undef L_float L_float2 L_float13 L_float15 L_float16.
Import ListNotations.
Local Notation length := List.length.
Open Scope R_scope.

Lemma weight_8 u1 u2 : 0 <= u1 -> u1 + u2 <= 1 -> 0 <= u1 + 2 * u2 -> weight u1 u2 <= 8.
Proof.
  intros A B C. unfold weight. rewrite (disk_is u1 u2). assert (D := dd_range u1 u2 A B C). assert (HP := PI_RGT_0). assert (E := dd_is u1 u2).
  rewrite (Rabs_pos_eq (PI * dd u1 u2)) by nra. replace (PI * (1 + Rabs u1 + Rabs u2) / (PI * dd u1 u2)) with ((1 + Rabs u1 + Rabs u2) / dd u1 u2) by (field; lra).
  apply (Rmult_le_reg_r (dd u1 u2)); [lra|]. unfold Rdiv. rewrite Rmult_assoc, Rinv_l, Rmult_1_r by lra. rewrite E. unfold Rabs. destruct (Rcase_abs u1), (Rcase_abs u2); lra.
Qed.

Section V.
Variable u eps : R.
Variable rd : rounder.
Hypothesis Acc : accurate u rd.
Variable F : FluxOp.
Hypothesis HF : solves eps F.
Variables u1 u2 : R.
Hypothesis Hlaw : 0 <= u1 /\ u1 + u2 <= 1 /\ 0 <= u1 + 2 * u2.
Let v := u / (1 - u).
Let U := proj1 Acc.
Let Hd : disk_flux u1 u2 <> 0.
Proof. apply Rgt_not_eq. apply disk_pos; tauto. Qed.
Let W8 : 0 < weight u1 u2 <= 8.
Proof. split; [apply weight_pos; exact Hd|apply weight_8; tauto]. Qed.
Lemma zero_u op x y : rd op x y 0 = 0.
Proof. assert (A := proj2 Acc op x y 0). rewrite Rabs_R0, Rmult_0_r, Rminus_0_r in A. assert (B := Rabs_pos (rd op x y 0)). destruct (Req_dec (rd op x y 0) 0) as [e|e]; [exact e|]. apply Rabs_pos_lt in e. lra. Qed.

Lemma rel_range b r los : -1 <= rel_flux u1 u2 b r los <= 0.
Proof.
  unfold rel_flux. destruct (Rlt_dec 0 los); [|lra]. assert (A := vis01 u1 u2 ltac:(tauto) ltac:(tauto) ltac:(tauto) b r). lra.
Qed.

(** the distance and the radius *)
Lemma geometry X Y r s a1 a2 a3 a4 a5 a6 a7 a8 a9 : 0 <= r -> 0 < s -> let b := sqrt (X * X + Y * Y) / s in
  let b' := rd ODiv a1 a2 (rd OSqrt a3 a4 (sqrt (rd OAdd a5 a6 (rd OMul X X (X * X) + rd OMul Y Y (Y * Y)))) / s) in
  let r' := rd ODiv a7 a8 (rd OAdd r a9 (r + 0) / s) in
  Rabs (b' - b) <= 3.5 * u * b /\ Rabs (r' - r / s) <= 2.3 * u * (r / s) /\ 0 <= b /\ 0 <= r / s.
Proof.
  intros Hr Hs. cbv zeta. assert (U' := U).
  assert (Pb : 0 <= sqrt (X * X + Y * Y) / s) by (apply Rmult_le_pos; [apply sqrt_pos|left; apply Rinv_0_lt_compat; exact Hs]).
  assert (Pr : 0 <= r / s) by (apply Rmult_le_pos; [exact Hr|left; apply Rinv_0_lt_compat; exact Hs]).
  assert (QX : 0 <= X * X) by apply Rle_0_sqr. assert (QY : 0 <= Y * Y) by apply Rle_0_sqr.
  assert (A : ap v 3 (rd ODiv a1 a2 (rd OSqrt a3 a4 (sqrt (rd OAdd a5 a6 (rd OMul X X (X * X) + rd OMul Y Y (Y * Y)))) / s)) (sqrt (X * X + Y * Y) / s)).
  { eapply (ap_weak u U); [apply (rd_ap u rd Acc); apply (ap_div u); [|apply (ap_refl u)]; apply (rd_ap u rd Acc); apply (ap_sqrt u); [lra|]; apply (rd_ap u rd Acc); apply (ap_add u); try assumption; apply (rd_ap u rd Acc); apply (ap_refl u)|]. lra. }
  assert (B : ap v 2 (rd ODiv a7 a8 (rd OAdd r a9 (r + 0) / s)) (r / s)).
  { eapply (ap_weak u U); [apply (rd_ap u rd Acc); apply (ap_div u); [|apply (ap_refl u)]; apply (rd_ap u rd Acc); rewrite Rplus_0_r; apply (ap_refl u)|]. lra. }
  apply (rel_u u rd Acc _ 3.5) in A; [|lra|lra]. apply (rel_u u rd Acc _ 2.3) in B; [|lra|lra]. rewrite (Rabs_pos_eq (_ / s)) in A by exact Pb. rewrite (Rabs_pos_eq (r / s)) in B by exact Pr.
  repeat split; assumption.
Qed.

Lemma point (P : nat -> fl -> fl * fl * fl) rst rs j t X Y Z r s : P j t = (Fin X, Fin Y, Fin Z) -> rst j = Fin s -> rs j = Fin r -> 0 < s -> 0 <= r ->
  exists w, fluxM rd F (computed_law rd u1 u2) P rst rs j t = Fin w /\
    Rabs (w - flux_at u1 u2 (X, Y, Z) r s) <= flux_error u eps + distance_error u (r / s) 0.
Proof.
  intros EP Es Er Hs Hr. assert (U' := U). destruct HF as [E0 _]. unfold fluxM. rewrite EP, Es, Er. cbn [fst snd].
  assert (Ns : s <> 0) by lra. cbn [nlit nadd nmul ndiv nsqrt rounded_fl NF]. cbn [fmul fadd rnd value fdiv]. rewrite (Reqb_ne _ _ Ns). cbn [rnd fadd fmul value fdiv]. rewrite zero_u. cbn [flt].
  assert (QX : 0 <= X * X) by apply Rle_0_sqr. assert (QY : 0 <= Y * Y) by apply Rle_0_sqr.
  assert (NN : forall op a b z, 0 <= z -> 0 <= rd op a b z). { intros op a b z Hz. assert (R := proj2 Acc op a b z). rewrite (Rabs_pos_eq z Hz) in R. apply abs_in in R. nra. }
  assert (Sg : Rltb 0 (rd ODiv Z s (Z / s)) = Rltb 0 Z).
  { assert (R := proj2 Acc ODiv Z s (Z / s)). assert (Is : 0 < / s) by (apply Rinv_0_lt_compat; exact Hs). unfold Rltb. destruct (Rlt_dec 0 Z) as [h|h].
    - assert (0 < Z / s) by (apply Rmult_lt_0_compat; assumption). rewrite (Rabs_pos_eq (Z / s)) in R by lra. apply abs_in in R. destruct (Rlt_dec 0 _) as [g|g]; [reflexivity|exfalso; apply g; nra].
    - assert (Z / s <= 0) by (unfold Rdiv; nra). rewrite (Rabs_left1 (Z / s)) in R by lra. apply abs_in in R. destruct (Rlt_dec 0 _) as [g|g]; [exfalso|reflexivity]. set (q := Z / s) in *. set (p := rd ODiv Z s q) in *. clearbody p q. nra. }
  rewrite Sg.
  assert (De : 0 <= flux_error u eps + distance_error u (r / s) 0).
  { unfold flux_error, distance_error. assert (0 <= r / s) by (apply Rmult_le_pos; [exact Hr|left; apply Rinv_0_lt_compat; exact Hs]). assert (0 <= r / s * (35 * u * (1 + r / s) + 4 * 0)); [|lra]. apply Rmult_le_pos; [assumption|]. assert (0 <= 35 * u * (1 + r / s)) by (apply Rmult_le_pos; lra). lra. }
  unfold Rltb. destruct (Rlt_dec 0 Z) as [h|h].
  2:{ exists 0. split; [reflexivity|]. unfold flux_at, vx, vy, vz. cbn [fst snd]. rewrite rel_flux_out; [rewrite Rminus_0_r, Rabs_R0; exact De|exact Hd|]. right. assert (Is : 0 < / s) by (apply Rinv_0_lt_compat; exact Hs). unfold Rdiv. nra. }
  cbn [fsqrt]. unfold fsqrt.
  assert (Nq : 0 <= rd OAdd (rd OMul X X (X * X)) (rd OMul Y Y (Y * Y)) (rd OMul X X (X * X) + rd OMul Y Y (Y * Y))).
  { apply NN. assert (0 <= rd OMul X X (X * X)) by (apply NN; exact QX). assert (0 <= rd OMul Y Y (Y * Y)) by (apply NN; exact QY). lra. }
  match goal with |- context [if ?c then NaN else _] => assert (Ec : c = false) by (unfold Rltb; destruct (Rlt_dec _ 0); [lra|reflexivity]); rewrite Ec; clear Ec end.
  cbn [rnd value fdiv]. rewrite (Reqb_ne _ _ Ns). cbn [rnd value].
  match goal with |- exists w, fquad _ (Fin ?B) (Fin ?Q) = _ /\ _ => destruct (quad_machine u eps rd Acc E0 u1 u2 ltac:(tauto) ltac:(tauto) ltac:(tauto) F B Q HF) as (w & Ew & Dw) end.
  exists w. split; [exact Ew|]. clear Ew.
  match type of Dw with context [rd ODiv ?a1 s (rd OSqrt ?a3 0 (sqrt (rd OAdd ?a5 ?a6 _)) / s)] => 
    destruct (geometry X Y r s a1 s a3 0 a5 a6 (rd OAdd r 0 (r + 0)) s 0 Hr Hs) as (G1 & G2 & G3 & G4) end.
  unfold flux_at, vx, vy, vz. cbn [fst snd].
  match type of Dw with context [visible_flux _ (Rabs ?B) (Rabs ?Q)] => set (b' := B) in *; set (r' := Q) in * end.
  set (b := sqrt (X * X + Y * Y) / s) in *. set (rho := r / s) in *. clearbody b' r' b rho.
  assert (Hz : 0 < Z / s) by (apply Rdiv_lt_0_compat; assumption).
  assert (Ew : visible_flux (intensity u1 u2) (Rabs b') (Rabs r') / disk_flux u1 u2 - 1 = rel_flux u1 u2 b' r' 1) by (unfold rel_flux; destruct (Rlt_dec 0 1); [reflexivity|lra]).
  rewrite Ew in Dw. apply abs_in in G1. apply abs_in in G2.
  assert (K : Rabs (rel_flux u1 u2 b rho (Z / s) - rel_flux u1 u2 b' r' 1) <= distance_error u rho 0).
  { assert (P0 : 0 <= u * rho) by (apply Rmult_le_pos; lra). assert (P1 : 0 <= u * rho * rho) by (apply Rmult_le_pos; lra). assert (Pb : 0 <= b') by nra. assert (Pr : 0 <= r') by nra.
    destruct (Rle_dec b (2 * (1 + rho))) as [hb|hb].
    - eapply Rle_trans; [apply rel_lip_both; [exact Hd|exact Hz|lra]|]. unfold distance_error. rewrite (Rabs_pos_eq rho), (Rabs_pos_eq b), (Rabs_pos_eq b') by assumption.
      assert (T1 : Rabs (b - b') <= 7 * u * (1 + rho)) by (apply Rabs_le; nra).
      assert (T2 : Rabs (rho * rho - r' * r') <= 4.7 * (u * rho * rho)).
      { replace (rho * rho - r' * r') with ((rho - r') * (rho + r')) by ring. rewrite Rabs_mult, (Rabs_pos_eq (rho + r')) by lra.
        assert (Rabs (rho - r') <= 2.3 * u * rho) by (apply Rabs_le; lra). apply Rle_trans with (2.3 * u * rho * (2.023 * rho)); [apply Rmult_le_compat; try apply Rabs_pos; try lra; nra|nra]. }
      apply Rmult_le_compat; try lra.
      + assert (0 <= 4 * rho * Rabs (b - b')) by (apply Rmult_le_pos; [lra|apply Rabs_pos]). assert (A := Rabs_pos (rho * rho - r' * r')). lra.
      + assert (4 * rho * Rabs (b - b') <= 4 * rho * (7 * u * (1 + rho))) by (apply Rmult_le_compat_l; lra). nra.
    - apply Rnot_le_lt in hb. rewrite !rel_flux_out; try exact Hd; [rewrite Rminus_0_r, Rabs_R0|left; rewrite !Rabs_pos_eq by assumption; nra|left; rewrite !Rabs_pos_eq by assumption; lra].
      unfold distance_error. nra. }
  rewrite Rabs_minus_sym in K. replace (w - rel_flux u1 u2 b rho (Z / s)) with ((w - rel_flux u1 u2 b' r' 1) + (rel_flux u1 u2 b' r' 1 - rel_flux u1 u2 b rho (Z / s))) by ring.
  eapply Rle_trans; [apply Rabs_triang|]. lra.
Qed.

(** ** sums *)
Definition asum (l : list R) : R := fold_right Rplus 0 (map Rabs l).
Lemma asum_pos l : 0 <= asum l.
Proof. induction l as [|x l IH]; cbn; [lra|]. assert (A := Rabs_pos x). unfold asum in IH. lra. Qed.
Lemma pow_1u k : 1 <= (1 + u) ^ k.
Proof. apply pow_R1_Rle. assert (U' := U). lra. Qed.
Lemma fsum_machine l : forall a, exists w, fold_left (@nadd fl bool (rounded_fl rd)) (map Fin l) (Fin a) = Fin w /\
  Rabs (w - (a + fold_right Rplus 0 l)) <= ((1 + u) ^ length l - 1) * (Rabs a + asum l).
Proof.
  assert (U' := U). induction l as [|x l IH]; intro a.
  - exists a. split; [reflexivity|]. cbn. rewrite Rplus_0_r, Rminus_diag_eq, Rabs_R0 by reflexivity. lra.
  - cbn [map fold_left]. cbn [nadd rounded_fl fadd rnd value]. set (y := rd OAdd a x (a + x)). destruct (IH y) as (w & Ew & Dw). exists w. split; [exact Ew|].
    assert (Y := proj2 Acc OAdd a x (a + x)). fold y in Y. clearbody y. cbn [fold_right length]. unfold asum in *. cbn [map fold_right].
    set (S := fold_right Rplus 0 (map Rabs l)) in *. assert (S0 : 0 <= S) by apply asum_pos. set (T := fold_right Rplus 0 l) in *. clearbody S T.
    assert (K := pow_1u (length l)). cbn [pow]. set (k := (1 + u) ^ length l) in *. clearbody k. assert (X := Rabs_triang a x). assert (Pa := Rabs_pos a). assert (Px := Rabs_pos x).
    set (q := Rabs a + Rabs x) in *. assert (Q1 : Rabs (y - (a + x)) <= u * q) by (eapply Rle_trans; [exact Y|]; apply Rmult_le_compat_l; lra).
    assert (Q2 : Rabs y <= (1 + u) * q). { replace y with ((y - (a + x)) + (a + x)) by ring. eapply Rle_trans; [apply Rabs_triang|]. lra. }
    replace (w - (a + (x + T))) with ((w - (y + T)) + (y - (a + x))) by ring. eapply Rle_trans; [apply Rabs_triang|].
    assert ((k - 1) * (Rabs y + S) <= (k - 1) * ((1 + u) * q + S)) by (apply Rmult_le_compat_l; lra).
    replace (Rabs a + (Rabs x + S)) with (q + S) by (unfold q; ring). clearbody q.
    apply Rle_trans with ((k - 1) * ((1 + u) * q + S) + u * q); [lra|]. assert (0 <= u * k * S) by (repeat apply Rmult_le_pos; lra). nra.
Qed.
(** a weighted sum whose weights add up to one *)
Lemma weighted (ws aa ps : list R) B : length ws = length aa -> length ps = length aa -> List.Forall (fun w => 0 < w) ws -> (forall i, (i < length aa)%nat -> Rabs (nth i aa 0) <= B) ->
  (forall i, (i < length aa)%nat -> Rabs (nth i ps 0 - nth i ws 0 * nth i aa 0) <= ((1 + u) ^ 2 - 1) * (nth i ws 0 * Rabs (nth i aa 0))) ->
  Rabs (fold_right Rplus 0 ps - fold_right Rplus 0 (map (fun p => fst p * snd p) (combine ws aa))) <= ((1 + u) ^ 2 - 1) * (B * fold_right Rplus 0 ws) /\
  asum ps <= (1 + u) ^ 2 * (B * fold_right Rplus 0 ws).
Proof.
  assert (U' := U). revert aa ps. induction ws as [|w ws IH]; intros [|a aa] [|p ps] L1 L2 Hw HB Hp; try discriminate L1; try discriminate L2.
  - unfold asum. cbn. rewrite Rminus_0_r, Rabs_R0. lra.
  - inversion Hw; subst. injection L1 as L1. injection L2 as L2. destruct (IH aa ps L1 L2 H2) as [A1 A2]; [intros i Hi; apply (HB (S i)); cbn; lia|intros i Hi; apply (Hp (S i)); cbn; lia|].
    assert (B0 := HB O ltac:(cbn; lia)). assert (P0 := Hp O ltac:(cbn; lia)). cbn [nth] in B0, P0. unfold asum in *. cbn [combine map fold_right fst snd].
    set (x := fold_right Rplus 0 ps) in *. set (y := fold_right Rplus 0 (map _ (combine ws aa))) in *. set (z := fold_right Rplus 0 ws) in *. set (q := fold_right Rplus 0 (map Rabs ps)) in *. clearbody x y z q.
    assert (T : w * Rabs a <= w * B) by (apply Rmult_le_compat_l; lra). assert (G : 0 <= (1 + u) ^ 2 - 1) by nra. set (g := (1 + u) ^ 2) in *. clearbody g.
    assert (T2 : (g - 1) * (w * Rabs a) <= (g - 1) * (w * B)) by (apply Rmult_le_compat_l; lra). split.
    + replace (p + x - (w * a + y)) with ((p - w * a) + (x - y)) by ring. eapply Rle_trans; [apply Rabs_triang|]. nra.
    + assert (Rabs p <= g * (w * B)); [|nra]. replace p with ((p - w * a) + w * a) by ring. eapply Rle_trans; [apply Rabs_triang|]. rewrite (Rabs_mult w a), (Rabs_pos_eq w) by lra. nra.
Qed.
End V.
