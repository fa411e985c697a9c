(** * The semi-major axis from the duration with rounding errors *)
From Coq Require Import Reals Lra Lia Psatz List Bool.
From Coquelicot Require Import Coquelicot.
From Verif Require Import Num CoreOps Inst M_units M_kepler M_tensor Spec_orbit Spec_params Spec_float Spec_float2 Spec_float3 Spec_float9
  L_real L_orbit L_fl L_params4 L_params5 L_same L_light8 L_float L_float2 L_float3 L_float4 L_float34.
Import ListNotations.
Open Scope R_scope.

Lemma sin_lip a b : Rabs (sin a - sin b) <= Rabs (a - b).
Proof. rewrite <- !(cos_shift). eapply Rle_trans; [apply cos_lip|]. replace (PI / 2 - a - (PI / 2 - b)) with (- (a - b)) by ring. rewrite Rabs_Ropp. lra. Qed.

Section V.
Variable u : R.
Variable rd : rounder.
Hypothesis Acc : accurate u rd.
Let v := u / (1 - u).
Let U := proj1 Acc.
Ltac aps := lazymatch goal with
  | |- ap _ _ (rd _ _ _ _) _ => eapply (rd_ap u rd Acc); aps
  | |- ap _ _ (_ * _) _ => eapply (ap_mul u); aps
  | |- ap _ _ (_ / _) _ => eapply (ap_div u); aps
  | |- _ => apply (ap_refl u)
  end.
Notation rl := (rl rd).

Section Q.
Variables d p b k : R.
Hypothesis Hd : 0 < d <= p / 2.
Hypothesis Hk : 0 <= k.
Hypothesis Hb : Rabs b < 1 + k.
Let l := 1 + k.
Let G := grazing l b.
Hypothesis HG : u * G <= 1 / 1000.
Let phi := PI * d / p.

Let b2 := rd OMul b b (b * b).
Let l' := rd OAdd (rl 1) k (rl 1 + k).
Let l2 := rd OMul l' l' (l' * l').
Let ph1 := rd OMul (rl PI) d (rl PI * d).
Let ph := rd ODiv ph1 p (ph1 / p).
Let sn := rd OSin ph 0 (sin ph).
Let cs := rd OCos ph 0 (cos ph).
Let c2 := rd OMul cs cs (cs * cs).
Let bc := rd OMul b2 c2 (b2 * c2).
Let A := rd OSub l2 bc (l2 - bc).
Let num := rd OSqrt A 0 (sqrt A).
Definition aor' := rd ODiv num sn (num / sn).
Let g1 := rd OMul (rl PI) cs (rl PI * cs).
Let g2 := rd OSub b2 l2 (b2 - l2).
Let g3 := rd OMul g1 g2 (g1 * g2).
Let g4 := rd OMul num p (num * p).
Let g5 := rd OMul sn sn (sn * sn).
Let g6 := rd OMul g4 g5 (g4 * g5).
Definition grad' := rd ODiv g3 g6 (g3 / g6).

Lemma base : 0 < p /\ 0 < phi <= PI / 2 /\ 1 <= l /\ 0 <= b * b < l * l /\ 1 <= G /\ l * l = G * (l * l - b * b) /\ 0 < sin phi <= 1 /\ 2 / PI * phi <= sin phi.
Proof.
  assert (Hpi := PI_RGT_0). assert (Pp : 0 < p) by lra. assert (P1 : 0 < phi <= PI / 2).
  { unfold phi. split; [apply Rdiv_lt_0_compat; nra|]. apply (Rmult_le_reg_r p); [exact Pp|]. replace (PI * d / p * p) with (PI * d) by (field; lra). nra. }
  assert (L1 : 1 <= l) by (unfold l; lra). assert (B : 0 <= b * b < l * l). { apply Rabs_def2 in Hb. fold l in Hb. nra. }
  assert (EG : l * l = G * (l * l - b * b)) by (unfold G, grazing; field; lra).
  split; [exact Pp|]. split; [exact P1|]. split; [exact L1|]. split; [exact B|]. split; [nra|]. split; [exact EG|].
  split; [split; [apply sin_gt_0; lra|apply SIN_bound]|].
  assert (K := sin_chord (2 / PI * phi) (PI / 2)). rewrite sin_PI2 in K. replace (2 / PI * phi * (PI / 2)) with phi in K by (field; lra).
  assert (E : 2 / PI * phi * (PI / 2) = phi) by (field; lra). assert (0 < 2 / PI) by (apply Rdiv_lt_0_compat; lra). assert (Q : 0 <= 2 / PI * phi) by (apply Rmult_le_pos; lra).
  assert (2 / PI * phi <= 1) by nra. lra.
Qed.
Lemma small : 0 <= u <= 1 / 1000.
Proof. destruct base as (_ & _ & _ & _ & G1 & _). assert (U' := U). nra. Qed.
Lemma rel n c x y : ap v n x y -> 0 <= n <= 10.9 -> 1.137 * n <= c -> Rabs (x - y) <= c * u * Rabs y.
Proof.
  intros H Hn Hc. destruct (v_u u rd Acc) as (X1 & X2 & X3). fold v in X2, X3. assert (U' := U). assert (L : n * v <= 1 / 9) by nra.
  assert (K := close_ap u n x y H L). fold v in K. eapply Rle_trans; [exact K|]. apply Rmult_le_compat_r; [apply Rabs_pos|]. assert (n * v <= n * (100 / 99 * u)) by (apply Rmult_le_compat_l; lra). nra.
Qed.
Lemma l2_ap : ap v 5 l2 (l * l).
Proof.
  assert (K : ap v 2 l' l). { apply (ap_weak u U (1 + 1)); [|lra]. apply (rd_ap u rd Acc), (ap_add u); [lra|exact Hk|apply (lit_ap u rd Acc)|]. apply (ap_weak u U 0); [apply (ap_refl u)|lra]. }
  apply (ap_weak u U (2 + 2 + 1)); [|lra]. apply (rd_ap u rd Acc), (ap_mul u); exact K.
Qed.
Lemma b2_ap : ap v 1 b2 (b * b).
Proof. apply (ap_weak u U (0 + 0 + 1)); [|lra]. unfold b2. aps. Qed.
Lemma ph_close : Rabs (ph - phi) <= 3.42 * u * phi.
Proof.
  destruct base as (Pp & P1 & _). assert (K : ap v 3 ph phi). { apply (ap_weak u U (1 + 0 + 1 + 0 + 1)); [|lra]. unfold ph, ph1. apply (rd_ap u rd Acc), (ap_div u); [|apply (ap_refl u)]. apply (rd_ap u rd Acc), (ap_mul u); [apply (lit_ap u rd Acc)|apply (ap_refl u)]. }
  assert (R := rel 3 3.42 _ _ K ltac:(lra) ltac:(lra)). rewrite (Rabs_pos_eq phi) in R by lra. exact R.
Qed.
Lemma pi_3 : 0 < PI < 3.2.
Proof. split; [apply PI_RGT_0|]. destruct (PI_ineq 9) as [_ K]. cbn -[INR] in K. unfold tg_alt, PI_tg in K. cbn in K. lra. Qed.
Lemma cs_close : Rabs (cs - cos phi) <= 6.6 * u /\ Rabs cs <= 1.01.
Proof.
  destruct base as (Pp & P1 & _). assert (P := pi_3). assert (S := small). assert (K := ph_close). assert (L := cos_lip ph phi).
  assert (E : 3.42 * u * phi <= 3.42 * u * 1.6) by (apply Rmult_le_compat_l; lra).
  assert (C := step u rd Acc OCos ph 0 (cos ph) (cos phi) (5.5 * u) 1 ltac:(lra) ltac:(apply Rabs_le, COS_bound)). fold cs in C.
  assert (B := COS_bound phi). assert (C' : Rabs (cs - cos phi) <= 6.6 * u) by nra. split; [exact C'|]. apply Rabs_le_between in C'. apply Rabs_le. lra.
Qed.
Lemma sn_ap : 0 < sn /\ ap v 14 sn (sin phi).
Proof.
  destruct base as (Pp & P1 & _ & _ & _ & _ & [S0 S1] & S2). assert (P := pi_3). assert (S := small). assert (K := ph_close). assert (L := sin_lip ph phi).
  assert (E : phi <= 1.6 * sin phi). { assert (E2 : phi = PI / 2 * (2 / PI * phi)) by (field; lra). rewrite E2 at 1. apply Rle_trans with (PI / 2 * sin phi); [apply Rmult_le_compat_l; lra|apply Rmult_le_compat_r; lra]. }
  assert (E3 : 3.42 * u * phi <= 5.5 * u * sin phi). { replace (5.5 * u * sin phi) with (3.42 * u * (5.5 / 3.42 * sin phi)) by lra. apply Rmult_le_compat_l; lra. }
  assert (C := step u rd Acc OSin ph 0 (sin ph) (sin phi) (5.5 * u * sin phi) (sin phi) ltac:(lra) ltac:(rewrite Rabs_pos_eq; lra)). fold sn in C.
  assert (C' : Rabs (sn - sin phi) <= 6.9 * sin phi * u). { eapply Rle_trans; [exact C|]. assert (0 <= u * sin phi) by nra. nra. }
  split; [apply Rabs_le_between in C'; nra|]. apply (ap_weak u U (2 * (6.9 * sin phi) / sin phi)); [apply (near_ap u rd Acc); [lra|lra|nra|exact C']|].
  assert (I1 : sin phi * / sin phi = 1) by (apply Rinv_r; lra). unfold Rdiv at 1. lra.
Qed.
Let AA := l * l - b * b * (cos phi * cos phi).
Lemma AA_low : (l * l - b * b) <= AA /\ 0 < AA.
Proof.
  destruct base as (_ & _ & _ & B & _). assert (C := COS_bound phi). assert (0 <= cos phi * cos phi <= 1) by nra. assert (b * b * (cos phi * cos phi) <= b * b) by nra. unfold AA. lra.
Qed.
Lemma A_close : Rabs (A - AA) <= 24 * (l * l) * u.
Proof.
  destruct base as (_ & _ & L1 & B & _). assert (S := small). destruct cs_close as [C1 C2]. assert (CB := COS_bound phi). assert (Pcs := Rabs_pos (cs - cos phi)).
  assert (D1 : Rabs (cs * cs - cos phi * cos phi) <= 13.4 * u).
  { replace (cs * cs - cos phi * cos phi) with ((cs - cos phi) * (cs + cos phi)) by ring. rewrite Rabs_mult.
    assert (Rabs (cs + cos phi) <= 2.01). { eapply Rle_trans; [apply Rabs_triang|]. assert (Rabs (cos phi) <= 1) by (apply Rabs_le; lra). lra. }
    assert (0 <= Rabs (cs + cos phi)) by apply Rabs_pos. nra. }
  assert (QC : 0 <= cos phi * cos phi <= 1) by nra.
  assert (D2 := step u rd Acc OMul cs cs (cs * cs) (cos phi * cos phi) (13.4 * u) 1 D1 ltac:(rewrite Rabs_pos_eq; lra)). fold c2 in D2. assert (D2' : Rabs (c2 - cos phi * cos phi) <= 14.5 * u) by nra. clear D2.
  assert (K2 := rel 1 1.2 _ _ b2_ap ltac:(lra) ltac:(lra)). rewrite (Rabs_pos_eq (b * b)) in K2 by lra.
  assert (D3 : Rabs (b2 * c2 - b * b * (cos phi * cos phi)) <= 16 * u * (b * b)).
  { assert (X : Rabs b2 <= 1.002 * (b * b)) by (apply Rabs_le_between in K2; apply Rabs_le; nra).
    replace (b2 * c2 - b * b * (cos phi * cos phi)) with (b2 * (c2 - cos phi * cos phi) + (b2 - b * b) * (cos phi * cos phi)) by ring. eapply Rle_trans; [apply Rabs_triang|]. rewrite (Rabs_mult b2), (Rabs_mult (b2 - b * b)), (Rabs_pos_eq (cos phi * cos phi)) by lra.
    assert (Y : Rabs b2 * Rabs (c2 - cos phi * cos phi) <= 1.002 * (b * b) * (14.5 * u)) by (apply Rmult_le_compat; try apply Rabs_pos; assumption).
    assert (Z0 : Rabs (b2 - b * b) * (cos phi * cos phi) <= 1.2 * u * (b * b) * 1) by (apply Rmult_le_compat; try apply Rabs_pos; lra). assert (0 <= u * (b * b)) by nra. nra. }
  assert (Q : 0 <= b * b * (cos phi * cos phi) <= b * b) by nra.
  assert (D4 := step u rd Acc OMul b2 c2 (b2 * c2) _ _ (b * b) D3 ltac:(rewrite Rabs_pos_eq; lra)). fold bc in D4.
  assert (W : 0 <= u * (b * b)) by nra. assert (W1 : u * (b * b) <= u * (l * l)) by (apply Rmult_le_compat_l; lra).
  assert (D4' : Rabs (bc - b * b * (cos phi * cos phi)) <= 17.1 * u * (l * l)). { eapply Rle_trans; [exact D4|]. assert (u * (16 * u * (b * b)) <= 0.016 * (u * (b * b))) by nra. nra. }
  assert (K5 := rel 5 5.7 _ _ l2_ap ltac:(lra) ltac:(lra)). rewrite (Rabs_pos_eq (l * l)) in K5 by nra.
  assert (D5 : Rabs (l2 - bc - AA) <= 22.8 * u * (l * l)). { unfold AA. apply Rabs_le_between in K5, D4'. apply Rabs_le. lra. }
  assert (D6 := step u rd Acc OSub l2 bc (l2 - bc) _ _ (l * l) D5 ltac:(destruct AA_low; rewrite Rabs_pos_eq; [unfold AA; lra|lra])). fold A in D6.
  eapply Rle_trans; [exact D6|]. assert (u * (22.8 * u * (l * l)) <= 0.0228 * (u * (l * l))). { assert (0 <= u * (l * l)) by nra. nra. } nra.
Qed.
Lemma ll_AA c : 0 <= c -> 2 * (c * (l * l)) / AA <= 2 * c * G.
Proof.
  intro Hc. destruct base as (_ & _ & L1 & B & G1 & EG & _). destruct AA_low as [A1 A2]. apply (Rmult_le_reg_r AA); [exact A2|]. replace (2 * (c * (l * l)) / AA * AA) with (2 * c * (l * l)) by (clear - A2; clearbody AA l; field; lra).
  rewrite EG. assert (G * (l * l - b * b) <= G * AA) by (apply Rmult_le_compat_l; lra). assert (0 <= 2 * c) by lra. nra.
Qed.
Lemma ll_small c X : 0 <= c <= 100 -> l * l <= G * X -> c * (l * l) * u <= X / 2 \/ X <= 0.
Proof.
  intros Hc HX. destruct (Rle_dec X 0) as [h|h]; [right; exact h|left]. apply Rnot_le_lt in h. destruct base as (_ & _ & L1 & B & G1 & EG & _). assert (S := small).
  assert (c * (l * l) * u <= c * (G * X) * u). { apply Rmult_le_compat_r; [lra|]. apply Rmult_le_compat_l; lra. }
  replace (c * (G * X) * u) with (c * X * (u * G)) in H by ring. assert (c * X * (u * G) <= c * X * (1 / 1000)) by (apply Rmult_le_compat_l; [apply Rmult_le_pos|]; lra). nra.
Qed.
Lemma A_ap : 0 < A /\ ap v (48 * G) A AA.
Proof.
  destruct base as (_ & _ & L1 & B & G1 & EG & _). destruct AA_low as [A1 A2]. assert (S := small). assert (K := A_close).
  assert (X : 24 * (l * l) * u <= AA / 2). { destruct (ll_small 24 AA ltac:(lra)) as [h|h]; [|exact h|lra]. rewrite EG. apply Rmult_le_compat_l; lra. }
  split; [apply Rabs_le_between in K; lra|]. apply (ap_weak u U (2 * (24 * (l * l)) / AA)); [apply (near_ap u rd Acc); [exact A2|nra|exact X|exact K]|]. assert (Y := ll_AA 24 ltac:(lra)). lra.
Qed.
Let w := sqrt AA / sin phi.
Lemma w_pos' : 0 < w.
Proof. destruct base as (_ & _ & _ & _ & _ & _ & [S0 S1] & _). apply Rdiv_lt_0_compat; [apply sqrt_lt_R0, AA_low|exact S0]. Qed.
Lemma num_ap : 0 < num /\ ap v (24 * G + 1) num (sqrt AA).
Proof.
  destruct A_ap as [P K]. destruct AA_low as [A1 A2]. assert (H : ap v (24 * G + 1) num (sqrt AA)).
  { apply (ap_weak u U (48 * G / 2 + 1)); [|lra]. apply (rd_ap u rd Acc), (ap_sqrt u); [lra|exact K]. }
  split; [|exact H]. apply (proj2 (ap_pos u _ _ _ H)), sqrt_lt_R0, A2.
Qed.
Lemma aor_ap : 0 < aor' /\ ap v (40 * G) aor' w.
Proof.
  destruct num_ap as [P K]. destruct sn_ap as [P2 K2]. destruct base as (_ & _ & _ & _ & G1 & _). assert (H : ap v (40 * G) aor' w).
  { apply (ap_weak u U (24 * G + 1 + 14 + 1)); [|lra]. apply (rd_ap u rd Acc), (ap_div u); assumption. }
  split; [|exact H]. apply (proj2 (ap_pos u _ _ _ H)), w_pos'.
Qed.
Lemma aor_off : off aor' w <= 41 * u * G.
Proof.
  destruct aor_ap as [P K]. assert (O := off_ap u _ _ _ w_pos' K). fold v in O. destruct (v_u u rd Acc) as (X1 & X2 & X3). fold v in X2, X3. destruct base as (_ & _ & _ & _ & G1 & _).
  apply (Rle_trans _ _ _ O). replace (41 * u * G) with (G * (41 * u)) by ring. replace (40 * G * v) with (G * (40 * v)) by ring. apply Rmult_le_compat_l; lra.
Qed.
(** the gradient *)
Let DD := l * l - b * b.
Lemma g2_ap : ap v (17 * G) (- g2) DD.
Proof.
  destruct base as (_ & _ & L1 & B & G1 & EG & _). assert (S := small). assert (PD : 0 < DD) by (unfold DD; lra).
  assert (K2 := rel 1 1.2 _ _ b2_ap ltac:(lra) ltac:(lra)). rewrite (Rabs_pos_eq (b * b)) in K2 by lra.
  assert (K5 := rel 5 5.7 _ _ l2_ap ltac:(lra) ltac:(lra)). rewrite (Rabs_pos_eq (l * l)) in K5 by nra.
  assert (W : 0 <= u * (b * b)) by nra. assert (W1 : u * (b * b) <= u * (l * l)) by (apply Rmult_le_compat_l; lra).
  assert (D1 : Rabs (b2 - l2 - - DD) <= 6.9 * u * (l * l)). { unfold DD. apply Rabs_le_between in K2, K5. apply Rabs_le. lra. }
  assert (D2 := step u rd Acc OSub b2 l2 (b2 - l2) _ _ (l * l) D1 ltac:(rewrite Rabs_Ropp, Rabs_pos_eq; unfold DD; lra)). fold g2 in D2.
  assert (D3 : Rabs (- g2 - DD) <= 8.2 * (l * l) * u).
  { replace (- g2 - DD) with (- (g2 - - DD)) by ring. rewrite Rabs_Ropp. eapply Rle_trans; [exact D2|]. assert (u * (6.9 * u * (l * l)) <= 0.0069 * (u * (l * l))). { assert (0 <= u * (l * l)) by nra. nra. } nra. }
  assert (X : 8.2 * (l * l) * u <= DD / 2). { destruct (ll_small 8.2 DD ltac:(lra)) as [h|h]; [|exact h|lra]. unfold DD. lra. }
  apply (ap_weak u U (2 * (8.2 * (l * l)) / DD)); [apply (near_ap u rd Acc); [exact PD|nra|exact X|exact D3]|].
  apply (Rmult_le_reg_r DD); [exact PD|]. assert (I1 : / DD * DD = 1) by (apply Rinv_l; lra). replace (2 * (8.2 * (l * l)) / DD * DD) with (16.4 * (l * l)) by (unfold Rdiv at 1; rewrite Rmult_assoc, I1; lra). rewrite EG. fold DD. nra.
Qed.
Let KK := PI * DD / (sqrt AA * p * (sin phi * sin phi)).
Lemma KK_pos : 0 < KK.
Proof.
  destruct base as (Pp & _ & _ & B & _ & _ & [S0 S1] & _). assert (Hpi := PI_RGT_0). unfold KK. apply Rdiv_lt_0_compat; [apply Rmult_lt_0_compat; [lra|unfold DD; lra]|].
  apply Rmult_lt_0_compat; [apply Rmult_lt_0_compat; [apply sqrt_lt_R0, AA_low|exact Pp]|apply Rmult_lt_0_compat; exact S0].
Qed.
Lemma g6_pos : 0 < g6.
Proof.
  destruct num_ap as [P K]. destruct sn_ap as [P2 K2]. destruct base as (Pp & _). 
  assert (H : ap v (0 + 0 + 1 + (0 + 0 + 1) + 1) g6 (num * p * (sn * sn))) by (unfold g6, g4, g5; aps).
  apply (proj2 (ap_pos u _ _ _ H)). repeat apply Rmult_lt_0_compat; assumption.
Qed.
Lemma grad_close : Rabs (grad' - - (KK * cos phi)) <= 100 * u * G * KK.
Proof.
  destruct num_ap as [P K]. destruct sn_ap as [P2 K2]. destruct base as (Pp & P1 & L1 & B & G1 & EG & [S0 S1] & _). destruct (v_u u rd Acc) as (X1 & X2 & X3). fold v in X2, X3. assert (Hpi := PI_RGT_0). assert (S := small).
  assert (SA : 0 < sqrt AA) by (apply sqrt_lt_R0, AA_low).
  assert (H : ap v (77 * G) (- grad') (KK * cs)).
  { replace (KK * cs) with (PI * cs * DD / (sqrt AA * p * (sin phi * sin phi))) by (unfold KK; field; repeat split; lra).
    apply (ap_weak u U (1 + 0 + 1 + 17 * G + 1 + (24 * G + 1 + 0 + 1 + (14 + 14 + 1) + 1) + 1)); [|lra].
    destruct (ap_neg u (1 + 0 + 1 + 17 * G + 1 + (24 * G + 1 + 0 + 1 + (14 + 14 + 1) + 1) + 1) grad' (- (PI * cs * DD / (sqrt AA * p * (sin phi * sin phi))))) as (q & E1 & E2).
    - replace (- (PI * cs * DD / (sqrt AA * p * (sin phi * sin phi)))) with (PI * cs * - DD / (sqrt AA * p * (sin phi * sin phi))) by (field; repeat split; lra).
      unfold grad'. apply (rd_ap u rd Acc), (ap_div u).
      + unfold g3. apply (rd_ap u rd Acc), (ap_mul u).
        * unfold g1. apply (rd_ap u rd Acc), (ap_mul u); [apply (lit_ap u rd Acc)|apply (ap_refl u)].
        * assert (N := ap_neg u _ _ _ g2_ap). rewrite Ropp_involutive in N. exact N.
      + unfold g6. apply (rd_ap u rd Acc), (ap_mul u).
        * unfold g4. apply (rd_ap u rd Acc), (ap_mul u); [exact K|apply (ap_refl u)].
        * unfold g5. apply (rd_ap u rd Acc), (ap_mul u); exact K2.
    - exists q. split; [rewrite E1; ring|exact E2]. }
  assert (GV : 77 * G * v <= 1 / 9). { assert (G * v <= G * (100 / 99 * u)) by (apply Rmult_le_compat_l; lra). nra. }
  assert (C := close_ap u _ _ _ H GV). fold v in C. destruct cs_close as [C1 C2]. assert (PK := KK_pos).
  rewrite Rabs_mult, (Rabs_pos_eq KK) in C by lra.
  assert (C' : Rabs (- grad' - KK * cs) <= 9 / 8 * (77 * G * (100 / 99 * u)) * (KK * 1.01)).
  { eapply Rle_trans; [exact C|]. apply Rmult_le_compat.
    - apply Rmult_le_pos; [lra|]. apply Rmult_le_pos; [lra|exact X2].
    - apply Rmult_le_pos; [lra|apply Rabs_pos].
    - apply Rmult_le_compat_l; [lra|]. apply Rmult_le_compat_l; lra.
    - apply Rmult_le_compat_l; lra. }
  replace (grad' - - (KK * cos phi)) with (- ((- grad' - KK * cs) + KK * (cs - cos phi))) by ring. rewrite Rabs_Ropp. eapply Rle_trans; [apply Rabs_triang|]. rewrite (Rabs_mult KK), (Rabs_pos_eq KK) by lra.
  assert (E : KK * Rabs (cs - cos phi) <= KK * (6.6 * u)) by (apply Rmult_le_compat_l; lra).
  assert (W : 0 <= u * KK) by nra. assert (W2 : u * KK <= u * KK * G) by nra. 
  replace (9 / 8 * (77 * G * (100 / 99 * u)) * (KK * 1.01)) with (9 / 8 * 77 * (100 / 99) * 1.01 * (u * KK * G)) in C' by lra. replace (100 * u * G * KK) with (100 * (u * KK * G)) by ring. lra.
Qed.
Lemma f_div x y : 0 < y -> @ndiv fl bool (rounded_fl rd) (Fin x) (Fin y) = Fin (rd ODiv x y (x / y)).
Proof. exact (e_div rd x y). Qed.
Lemma f_sqrt x : 0 <= x -> @nsqrt fl bool (rounded_fl rd) (Fin x) = Fin (rd OSqrt x 0 (sqrt x)).
Proof. exact (e_sqrt rd x). Qed.
Lemma f_mul x y : @nmul fl bool (rounded_fl rd) (Fin x) (Fin y) = Fin (rd OMul x y (x * y)).
Proof. reflexivity. Qed.
Lemma f_sub x y : @nsub fl bool (rounded_fl rd) (Fin x) (Fin y) = Fin (rd OSub x y (x - y)).
Proof. exact (e_sub rd x y). Qed.
Lemma f_sq x : @npw fl bool (rounded_fl rd) (Fin x) 2 = Fin (rd OMul x x (x * x)).
Proof. reflexivity. Qed.
Lemma aor_fl : @get_aor fl bool (rounded_fl rd) (Fin d) (Fin p) (Fin b) (Some (Fin k)) = (Fin aor', Fin grad').
Proof.
  destruct A_ap as [PA _]. destruct sn_ap as [Ps _]. assert (P6 := g6_pos). destruct base as (Pp & _).
  unfold get_aor. cbv zeta. rewrite !(e_lit rd), !(f_sq). fold b2. 
  change (@nadd fl bool (rounded_fl rd) (Fin (rl 1)) (Fin k)) with (Fin l'). rewrite !(f_sq). fold l2.
  rewrite (f_mul _ d). fold ph1. rewrite (f_div ph1 p Pp). fold ph. change (@nsin fl bool (rounded_fl rd) (Fin ph)) with (Fin sn). change (@ncos fl bool (rounded_fl rd) (Fin ph)) with (Fin cs).
  rewrite !(f_sq). fold c2 g5. rewrite (f_mul b2 c2). fold bc. rewrite (f_sub l2 bc). fold A. rewrite (f_sqrt A (Rlt_le _ _ PA)). fold num. rewrite (f_div num sn Ps). fold aor'.
  rewrite (f_mul _ cs). fold g1. rewrite (f_sub b2 l2). fold g2. rewrite (f_mul g1 g2). fold g3. rewrite (f_mul num p). fold g4. rewrite (f_mul g4 g5). fold g6. rewrite (f_div g3 g6 P6). reflexivity.
Qed.
Lemma touch_w : touches d p b k w.
Proof.
  destruct base as (Pp & _ & _ & _ & _ & _ & [S0 S1] & _). destruct AA_low as [A1 A2]. unfold touches. cbv zeta. fold phi. split; [exact w_pos'|].
  unfold w. replace (sqrt AA / sin phi * sin phi) with (sqrt AA) by (field; lra). rewrite sqrt_sqrt by lra. unfold AA, l. ring.
Qed.
Lemma touch_eq x : touches d p b k x -> x = aor_dur d p b k.
Proof.
  intro T. assert (E : aor_dur d p b k = w) by reflexivity. rewrite E. assert (T2 := touch_w). destruct T as [X1 X2], T2 as [Y1 Y2]. cbv zeta in X2, Y2. fold phi in X2, Y2.
  destruct base as (Pp & _ & _ & _ & _ & _ & [S0 S1] & _). clearbody w. assert (H : x * sin phi = w * sin phi).
  { assert (0 < x * sin phi) by nra. assert (0 < w * sin phi) by nra. set (X := x * sin phi) in *. set (Y := w * sin phi) in *. clearbody X Y. nra. }
  nra.
Qed.
Lemma KK_steep : KK = steepness d p b k w.
Proof.
  destruct base as (Pp & _ & _ & _ & _ & _ & [S0 S1] & _). assert (SA : 0 < sqrt AA) by (apply sqrt_lt_R0, AA_low). unfold KK, steepness, w, DD. fold phi l. set (q := sqrt AA) in *. set (t := sin phi) in *. clear - SA S0 Pp. clearbody q t l. field. repeat split; lra.
Qed.
Lemma grad_KK : aor_grad d p b k = - (KK * cos phi).
Proof.
  destruct base as (Pp & _ & _ & _ & _ & _ & [S0 S1] & _). assert (SA : 0 < sqrt AA) by (apply sqrt_lt_R0, AA_low). unfold KK, aor_grad, DD. fold phi l. fold AA. set (q := sqrt AA) in *. set (t := sin phi) in *. set (c := cos phi). clear - SA S0 Pp. clearbody q t l c. field. repeat split; lra.
Qed.
End Q.
End V.

Lemma aor_float : forall u rd, accurate u rd -> forall (duration period b : tens) (ror : option tens) s i d p bb k,
  ash duration = Ok s -> (ash period = Ok s \/ ash period = Ok []) -> (ash b = Ok s \/ ash b = Ok []) ->
  match ror with Some r => (ash r = Ok s \/ ash r = Ok []) /\ aget r i = Fin k | None => k = 0 end ->
  aget duration i = Fin d -> aget period i = Fin p -> aget b i = Fin bb -> 
  0 < d <= p / 2 -> 0 <= k -> Rabs bb < 1 + k -> u * grazing (1 + k) bb <= 1 / 1000 ->
  exists A G v g w, computed_aor rd duration period b ror = (A, G) /\ ash A = Ok s /\ ash G = Ok s /\ aget A i = Fin v /\ aget G i = Fin g /\
    0 < v /\ touches d p bb k w /\ off v w <= 41 * u * grazing (1 + k) bb /\
    (d < p / 2 -> exists f', (forall f, (forall x, 0 < x < p / 2 -> touches x p bb k (f x)) -> is_derive f d f') /\
      f' < 0 /\ f' = - (steepness d p bb k w * cos (PI * d / p)) /\ Rabs (g - f') <= 100 * u * grazing (1 + k) bb * steepness d p bb k w).
Proof.
  intros u rd Acc duration period b ror s i d p bb k Sd Sp Sb Sr Vd Vp Vb Hd Hk Hb HG.
  assert (KZ : k = 0 -> rl rd 0 = 0). { intros _. unfold rl. destruct Acc as [_ K]. specialize (K OLit 0 0 0). rewrite Rabs_R0, Rmult_0_r, Rminus_0_r in K. assert (Z0 := Rabs_pos (rd OLit 0 0 0)). apply Rabs_eq_0. lra. }
  set (r := match ror with Some r => r | None => @nlit tens btens (rounded_tens rd) 0 end).
  assert (R1 : (ash r = Ok s \/ ash r = Ok []) /\ aget r i = Fin k). { unfold r. destruct ror as [r0|]; [exact Sr|]. split; [right; reflexivity|]. change (Fin (rl rd 0) = Fin k). rewrite (KZ Sr), Sr. reflexivity. }
  assert (EC : computed_aor rd duration period b ror = @get_aor tens btens (rounded_tens rd) duration period b (Some r)) by (unfold computed_aor, get_aor, r; destruct ror; reflexivity).
  destruct R1 as [Sr' Vr]. set (P := @get_aor tens btens (rounded_tens rd) duration period b (Some r)) in *. 
  assert (SP : ash (fst P) = Ok s /\ ash (snd P) = Ok s).
  { unfold P, get_aor. cbn [fst snd nlit rounded_tens nadd nsub nmul ndiv npw nsqrt nsin ncos amap amap2 alit ash]. rewrite Sd. destruct Sp as [E|E], Sb as [E2|E2], Sr' as [E3|E3]; rewrite E, E2, E3; repeat (first [rewrite r_l|rewrite r_r|rewrite r_s]); split; reflexivity. }
  assert (VP : (aget (fst P) i, aget (snd P) i) = @get_aor fl bool (rounded_fl rd) (aget duration i) (aget period i) (aget b i) (Some (aget r i))).
  { unfold P, get_aor. cbn [fst snd nlit rounded_tens nadd nsub nmul ndiv npw nsqrt nsin ncos amap amap2 alit aget]. reflexivity. }
  rewrite Vd, Vp, Vb, Vr, (aor_fl u rd Acc d p bb k Hd Hk Hb HG) in VP.
  exists (fst P), (snd P), (aor' rd d p bb k), (grad' rd d p bb k), (aor_dur d p bb k).
  split; [rewrite EC; destruct P; reflexivity|]. split; [apply SP|]. split; [apply SP|]. split; [apply (f_equal fst) in VP; exact VP|]. split; [apply (f_equal snd) in VP; exact VP|].
  split; [exact (proj1 (aor_ap u rd Acc d p bb k Hd Hk Hb HG))|]. split; [exact (touch_w d p bb k Hd Hk Hb)|]. split; [exact (aor_off u rd Acc d p bb k Hd Hk Hb HG)|].
  intros Hd2. exists (aor_grad d p bb k). assert (QB : Rabs bb * Rabs bb = bb * bb) by (symmetry; apply (Rsqr_abs bb)). assert (PB := Rabs_pos bb).
  destruct (aor_derive d p (Rabs bb) k ltac:(lra) (conj PB Hb)) as (D1 & D2 & D3).
  assert (EQ : aor_grad d p (Rabs bb) k = aor_grad d p bb k) by (unfold aor_grad; rewrite QB; reflexivity). rewrite EQ in D1, D3.
  apply (is_derive_ext _ (fun d => aor_dur d p bb k)) in D1. 2:{ intro x. unfold aor_dur. rewrite QB. reflexivity. } split; [|split; [exact D3|]].
  - intros f Hf. apply (is_derive_ext_loc (fun d => aor_dur d p bb k)); [|exact D1].
    assert (L : locally d (fun x => 0 < x < p / 2)). { apply (locally_interval _ d 0 (p / 2)); cbn; try lra. intros y Y1 Y2. cbn in Y1, Y2. lra. }
    apply (filter_imp (fun x => 0 < x < p / 2)); [|exact L]. intros x Hx. symmetry. apply (touch_eq x p bb k ltac:(lra) Hk Hb). apply Hf, Hx.
  - rewrite (grad_KK d p bb k Hd Hk Hb). assert (K := grad_close u rd Acc d p bb k Hd Hk Hb HG). assert (E := KK_steep d p bb k Hd Hk Hb).
    change (sqrt ((1 + k) * (1 + k) - bb * bb * (cos (PI * d / p) * cos (PI * d / p))) / sin (PI * d / p)) with (aor_dur d p bb k) in E. rewrite <- E. split; [reflexivity|exact K].
Qed.
