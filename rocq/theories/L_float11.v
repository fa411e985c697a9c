(** * How far rounding errors put the results of grid interpolation off *)
From Coq Require Import Reals List Bool Arith ZArith Lra Lia Psatz.
From Verif Require Import Num CoreOps Inst CoreFlux M_units M_kepler M_tensor M_simple M_ttv M_limbdark M_interpolated M_grid
  Spec_array Spec_light Spec_grid Spec_float Spec_float2 Spec_float3 L_fl L_real L_shapeS L_grid1 L_grid2 L_float10.
Import ListNotations.
Open Scope R_scope.

Section Err.
Variable rd : rounder.
Variable u : R.
Hypothesis acc : accurate u rd.

Lemma Ubnd : 0 <= u <= 1 / 100. Proof. apply acc. Qed.
Lemma rel op x y r : exists e, rd op x y r = r * (1 + e) /\ Rabs e <= u.
Proof.
  destruct acc as [U A]. specialize (A op x y r). destruct (Req_dec r 0) as [->|N].
  - rewrite Rabs_R0, Rmult_0_r in A. exists 0. rewrite Rabs_R0. split; [|lra]. destruct (Req_dec (rd op x y 0 - 0) 0) as [E|E]; [lra|]. apply Rabs_pos_lt in E. lra.
  - exists ((rd op x y r - r) / r). split; [field; exact N|]. unfold Rdiv. rewrite Rabs_mult, Rabs_inv. apply Rmult_le_reg_r with (Rabs r); [apply Rabs_pos_lt; exact N|].
    rewrite Rmult_assoc, Rinv_l by (apply Rabs_no_R0; exact N). lra.
Qed.
Lemma absle (a b : R) : -b <= a <= b -> Rabs a <= b.
Proof. intro H. apply Rabs_le. exact H. Qed.
Lemma abs2 a : - Rabs a <= a <= Rabs a.
Proof. split; [assert (Q := Rle_abs (- a)); rewrite Rabs_Ropp in Q; lra|apply Rle_abs]. Qed.

(** the distances in the cell *)
Definition near_y (y y' : R) : Prop := let h := Rabs (1 - y) + Rabs y in
  (Rabs (clow rd y') + Rabs y') * (1 + u) <= h * (1 + 10 * u) /\
  Rabs (clow rd y' - (1 - y)) + Rabs (y' - y) + u * (Rabs (clow rd y') + Rabs y') <= 10 * u * h.
Lemma quotient_near a c e1 e2 e3 : c <> 0 -> Rabs e1 <= u -> Rabs e2 <= u -> Rabs e3 <= u ->
  Rabs (a * (1 + e1) / (c * (1 + e2)) * (1 + e3) - a / c) <= 31 / 10 * u * Rabs (a / c).
Proof.
  intros Hc H1 H2 H3. assert (U := Ubnd). clear acc.
  assert (B1 := abs2 e1). assert (B2 := abs2 e2). assert (B3 := abs2 e3).
  replace (a * (1 + e1) / (c * (1 + e2)) * (1 + e3) - a / c) with (((1 + e1) * (1 + e3) / (1 + e2) - 1) * (a / c)) by (field; repeat split; first [exact Hc|lra]).
  rewrite Rabs_mult. apply Rmult_le_compat_r; [apply Rabs_pos|].
  replace ((1 + e1) * (1 + e3) / (1 + e2) - 1) with ((e1 + e3 + e1 * e3 - e2) * / (1 + e2)) by (field; lra).
  rewrite Rabs_mult, Rabs_inv, (Rabs_pos_eq (1 + e2)) by lra.
  assert (N : Rabs (e1 + e3 + e1 * e3 - e2) <= 3 * u + u * u).
  { eapply Rle_trans; [apply Rabs_triang|]. rewrite Rabs_Ropp. assert (Q1 := Rabs_triang (e1 + e3) (e1 * e3)). assert (Q2 := Rabs_triang e1 e3). rewrite Rabs_mult in Q1.
    assert (Rabs e1 * Rabs e3 <= u * u) by (apply Rmult_le_compat; try apply Rabs_pos; assumption). lra. }
  apply Rmult_le_reg_r with (1 + e2); [lra|]. rewrite Rmult_assoc, Rinv_l, Rmult_1_r by lra. nra.
Qed.
Lemma near_low y y' : Rabs (y' - y) <= 31 / 10 * u * Rabs y -> near_y y y'.
Proof.
  intro H. assert (U := Ubnd).
  assert (L : Rabs (clow rd y' - (1 - y)) <= 101 / 100 * u + 314 / 100 * u * Rabs y + u * Rabs (1 - y)).
  { unfold clow. destruct (rel OLit 1 0 1) as (e4 & -> & H4). destruct (rel OSub (1 * (1 + e4)) y' (1 * (1 + e4) - y')) as (e5 & -> & H5). clear acc.
    replace ((1 * (1 + e4) - y') * (1 + e5) - (1 - y)) with ((e4 - (y' - y)) * (1 + e5) + e5 * (1 - y)) by ring.
    eapply Rle_trans; [apply Rabs_triang|]. rewrite !Rabs_mult.
    assert (A1 : Rabs (e4 - (y' - y)) <= u + 31 / 10 * u * Rabs y). { eapply Rle_trans; [apply Rabs_triang|]. rewrite Rabs_Ropp. lra. }
    assert (A2 : Rabs (1 + e5) <= 1 + u). { assert (Q := Rabs_triang 1 e5). rewrite Rabs_R1 in Q. lra. }
    assert (A3 : Rabs e5 * Rabs (1 - y) <= u * Rabs (1 - y)) by (apply Rmult_le_compat_r; [apply Rabs_pos|exact H5]).
    assert (A4 : Rabs (e4 - (y' - y)) * Rabs (1 + e5) <= (u + 31 / 10 * u * Rabs y) * (1 + u)) by (apply Rmult_le_compat; try apply Rabs_pos; assumption).
    assert (P := Rabs_pos y). assert (0 <= u * Rabs y) by nra. nra. }
  assert (T : 1 <= Rabs (1 - y) + Rabs y). { assert (Q := Rabs_triang (1 - y) y). replace (1 - y + y) with 1 in Q by ring. rewrite Rabs_R1 in Q. exact Q. }
  assert (A : Rabs (clow rd y') <= Rabs (1 - y) + Rabs (clow rd y' - (1 - y))). { assert (Q := Rabs_triang (1 - y) (clow rd y' - (1 - y))). replace (1 - y + (clow rd y' - (1 - y))) with (clow rd y') in Q by ring. exact Q. }
  assert (B : Rabs y' <= Rabs y + Rabs (y' - y)). { assert (Q := Rabs_triang y (y' - y)). replace (y + (y' - y)) with y' in Q by ring. exact Q. }
  assert (P1 := Rabs_pos y). assert (P2 := Rabs_pos (1 - y)). unfold near_y. cbv zeta. clear acc.
  set (p := Rabs y) in *. set (q := Rabs (1 - y)) in *. set (c := Rabs (clow rd y')) in *. set (d := Rabs (clow rd y' - (1 - y))) in *. set (d1 := Rabs (y' - y)) in *. set (c1 := Rabs y') in *. clearbody p q c d d1 c1.
  assert (D : d + d1 <= 725 / 100 * u * (q + p)). { assert (0 <= u * p) by nra. assert (0 <= u * q) by nra. assert (u <= u * (q + p)) by nra. nra. }
  assert (S : c + c1 <= (q + p) * (1 + 725 / 100 * u)) by nra.
  split.
  - apply Rle_trans with ((q + p) * (1 + 725 / 100 * u) * (1 + u)); [apply Rmult_le_compat_r; lra|]. rewrite Rmult_assoc. apply Rmult_le_compat_l; [lra|]. nra.
  - assert (u * (c + c1) <= u * ((q + p) * (1 + 725 / 100 * u))) by (apply Rmult_le_compat_l; lra).
    assert (u * ((q + p) * (1 + 725 / 100 * u)) <= u * (q + p) * (108 / 100)). { assert (0 <= u * (q + p)) by nra. nra. }
    nra.
Qed.
Lemma cfracs_near gs xs : List.Forall grid_ok gs -> length xs = length gs -> Forall2 near_y (fracs gs xs) (cfracs rd gs xs).
Proof.
  intro H. revert xs. induction H as [|g gs Hg H IH]; intros [|x xs] L; try discriminate; [constructor|].
  cbn [fracs cfracs]. constructor; [|apply IH; cbn in L; lia]. apply near_low. unfold cfrac, frac.
  destruct (cellof_belongs g x Hg) as [B _]. destruct Hg as [_ HI]. assert (Q := HI (cellof g x) (S (cellof g x)) ltac:(lia) B).
  set (g0 := nth (cellof g x) g 0) in *. set (g1 := nth (S (cellof g x)) g 0) in *. cbv zeta.
  destruct (rel OSub x g0 (x - g0)) as (e1 & -> & H1). destruct (rel OSub g1 g0 (g1 - g0)) as (e2 & -> & H2).
  match goal with |- Rabs (rd ODiv ?a ?b ?r - _) <= _ => destruct (rel ODiv a b r) as (e3 & -> & H3) end.
  apply quotient_near; try assumption. lra.
Qed.

Lemma stretch_pos ys : 0 <= stretch ys.
Proof. induction ys as [|y ys IH]; cbn; [lra|]. assert (Q := Rabs_pos y). assert (W := Rabs_pos (1 - y)). apply Rmult_le_pos; lra. Qed.
Lemma blend_abs is ys : length is = length ys -> forall V M, (forall js, corner is js -> Rabs (V js) <= M) -> Rabs (blend is ys V) <= stretch ys * M.
Proof.
  clear acc. revert is. induction ys as [|y ys IH]; intros [|i is] L V M H; try discriminate.
  - cbn. rewrite Rmult_1_l. apply H. constructor.
  - cbn [blend stretch]. assert (E0 := IH is ltac:(cbn in L; lia) (fun js => V (i :: js)) M). assert (E1 := IH is ltac:(cbn in L; lia) (fun js => V (S i :: js)) M).
    specialize (E0 ltac:(intros js J; apply H; constructor; [left; reflexivity|exact J])). specialize (E1 ltac:(intros js J; apply H; constructor; [right; reflexivity|exact J])).
    eapply Rle_trans; [apply Rabs_triang|]. rewrite !Rabs_mult. assert (P0 := Rabs_pos (1 - y)). assert (P1 := Rabs_pos y). nra.
Qed.
Lemma pow1 x n : 1 <= x -> 1 <= x ^ n.
Proof. intro H. apply pow_R1_Rle. exact H. Qed.

(** the sum over the corners *)
Lemma run_error ys ys' : Forall2 near_y ys ys' -> forall is V M a a' w w', length is = length ys -> (forall js, corner is js -> Rabs (V js) <= M) ->
  let n := (2 ^ length ys)%nat in let X := (1 + u) ^ n in let P := (1 + 10 * u) ^ length ys in
  Rabs (crun rd is ys' V a' w' - (a + w * blend is ys V)) <=
    X * Rabs (a' - a) + (X - 1) * Rabs a + M * stretch ys * ((1 + u) * X * P * Rabs (w' - w) + ((1 + u) * X * P - 1) * Rabs w).
Proof.
  assert (U := Ubnd).
  induction 1 as [|y y' ys ys' Hy HF IH]; intros is V M a a' w w' L HM; destruct is as [|i is]; try discriminate.
  - cbn [crun blend stretch length Nat.pow]. cbv zeta. rewrite !pow_1, pow_O.
    destruct (rel OMul (V []) w' (V [] * w')) as (e1 & -> & H1).
    match goal with |- Rabs (rd OAdd ?x ?b ?r - _) <= _ => destruct (rel OAdd x b r) as (e2 & -> & H2) end. clear acc.
    assert (Hv := HM [] ltac:(constructor)). set (v := V []) in *.
    assert (P1 := Rabs_pos v). assert (M0 : 0 <= M) by lra.
    replace ((a' + v * w' * (1 + e1)) * (1 + e2) - (a + w * v)) with ((a' - a) * (1 + e2) + e2 * a + v * ((w' - w) * ((1 + e1) * (1 + e2)) + w * ((1 + e1) * (1 + e2) - 1))) by ring.
    assert (B2 : Rabs (1 + e2) <= 1 + u). { assert (Q := Rabs_triang 1 e2). rewrite Rabs_R1 in Q. lra. }
    assert (B1 : Rabs (1 + e1) <= 1 + u). { assert (Q := Rabs_triang 1 e1). rewrite Rabs_R1 in Q. lra. }
    assert (B3 : Rabs ((1 + e1) * (1 + e2)) <= (1 + u) * (1 + u)). { rewrite Rabs_mult. apply Rmult_le_compat; try apply Rabs_pos; assumption. }
    assert (B4 : Rabs ((1 + e1) * (1 + e2) - 1) <= (1 + u) * (1 + u) - 1).
    { replace ((1 + e1) * (1 + e2) - 1) with (e1 + e2 + e1 * e2) by ring. eapply Rle_trans; [apply Rabs_triang|]. assert (Q := Rabs_triang e1 e2). rewrite Rabs_mult.
      assert (Rabs e1 * Rabs e2 <= u * u) by (apply Rmult_le_compat; try apply Rabs_pos; assumption). lra. }
    eapply Rle_trans; [apply Rabs_triang|]. eapply Rle_trans; [apply Rplus_le_compat_r, Rabs_triang|]. rewrite !(Rabs_mult v), (Rabs_mult (a' - a)), (Rabs_mult e2).
    assert (C1 : Rabs (a' - a) * Rabs (1 + e2) <= (1 + u) * Rabs (a' - a)) by (rewrite Rmult_comm; apply Rmult_le_compat_r; [apply Rabs_pos|exact B2]).
    assert (C2 : Rabs e2 * Rabs a <= u * Rabs a) by (apply Rmult_le_compat_r; [apply Rabs_pos|exact H2]).
    assert (C3 : Rabs ((w' - w) * ((1 + e1) * (1 + e2)) + w * ((1 + e1) * (1 + e2) - 1)) <= (1 + u) * (1 + u) * Rabs (w' - w) + ((1 + u) * (1 + u) - 1) * Rabs w).
    { eapply Rle_trans; [apply Rabs_triang|]. rewrite (Rabs_mult (w' - w)), (Rabs_mult w). apply Rplus_le_compat; rewrite Rmult_comm; (apply Rmult_le_compat_r; [apply Rabs_pos|assumption]). }
    assert (C4 : Rabs v * Rabs ((w' - w) * ((1 + e1) * (1 + e2)) + w * ((1 + e1) * (1 + e2) - 1)) <= M * ((1 + u) * (1 + u) * Rabs (w' - w) + ((1 + u) * (1 + u) - 1) * Rabs w)) by (apply Rmult_le_compat; try apply Rabs_pos; assumption).
    lra.
  - assert (L' : length is = length ys) by (cbn in L; lia).
    assert (HM0 : forall js, corner is js -> Rabs (V (i :: js)) <= M) by (intros js J; apply HM; constructor; [left; reflexivity|exact J]).
    assert (HM1 : forall js, corner is js -> Rabs (V (S i :: js)) <= M) by (intros js J; apply HM; constructor; [right; reflexivity|exact J]).
    assert (M0 : 0 <= M). { specialize (HM (i :: is)). assert (Q := Rabs_pos (V (i :: is))). assert (J : corner (i :: is) (i :: is)). { clear. induction (i :: is) as [|k l IH]; constructor; [left; reflexivity|exact IH]. } specialize (HM J). lra. }
    cbn [crun blend stretch length]. cbv zeta.
    set (w0' := rd OMul w' (clow rd y') (w' * clow rd y')). set (w1' := rd OMul w' y' (w' * y')).
    set (b0 := blend is ys (fun js => V (i :: js))). set (b1 := blend is ys (fun js => V (S i :: js))).
    set (a1' := crun rd is ys' (fun js => V (i :: js)) a' w0').
    set (w0 := w * (1 - y)). set (w1 := w * y). set (a1 := a + w0 * b0).
    assert (I0 := IH is (fun js => V (i :: js)) M a a' w0 w0' L' HM0). assert (I1 := IH is (fun js => V (S i :: js)) M a1 a1' w1 w1' L' HM1).
    cbv zeta in I0, I1. fold b0 in I0. fold b1 in I1. fold a1' in I0. fold a1 in I0.
    assert (BB := blend_abs is ys L' _ M HM0). fold b0 in BB.
    replace (a + w * ((1 - y) * b0 + y * b1)) with (a1 + w1 * b1) by (unfold a1, w0, w1; ring).
    set (m := (2 ^ length ys)%nat) in *. replace (2 ^ S (length ys))%nat with (m + m)%nat by (cbn [Nat.pow]; unfold m; lia).
    rewrite pow_add. change ((1 + 10 * u) ^ S (length ys)) with ((1 + 10 * u) * (1 + 10 * u) ^ length ys).
    assert (HX : 1 <= (1 + u) ^ m) by (apply pow1; lra). assert (HP : 1 <= (1 + 10 * u) ^ length ys) by (apply pow1; lra).
    assert (HS := stretch_pos ys). set (X := (1 + u) ^ m) in *. set (P := (1 + 10 * u) ^ length ys) in *. set (H := stretch ys) in *.
    assert (AA : Rabs a1 <= Rabs a + Rabs w0 * (H * M)). { unfold a1. eapply Rle_trans; [apply Rabs_triang|]. rewrite Rabs_mult. assert (Q := Rabs_pos w0). nra. }
    destruct Hy as [F1 F2]. cbv zeta in F1, F2.
    assert (W : forall f' f, Rabs (rd OMul w' f' (w' * f') - w * f) <= Rabs (w' - w) * (Rabs f' * (1 + u)) + Rabs w * (Rabs (f' - f) + u * Rabs f')).
    { intros f' f. destruct (rel OMul w' f' (w' * f')) as (e & -> & He). clear - He U.
      replace (w' * f' * (1 + e) - w * f) with ((w' - w) * (f' * (1 + e)) + w * ((f' - f) + e * f')) by ring.
      eapply Rle_trans; [apply Rabs_triang|]. rewrite !Rabs_mult.
      assert (B : Rabs (1 + e) <= 1 + u). { assert (Q := Rabs_triang 1 e). rewrite Rabs_R1 in Q. lra. }
      apply Rplus_le_compat; (apply Rmult_le_compat_l; [apply Rabs_pos|]).
      - apply Rmult_le_compat_l; [apply Rabs_pos|exact B].
      - eapply Rle_trans; [apply Rabs_triang|]. rewrite Rabs_mult. apply Rplus_le_compat_l, Rmult_le_compat_r; [apply Rabs_pos|exact He]. }
    assert (W0 := W (clow rd y') (1 - y)). assert (W1 := W y' y). fold w0' w0 in W0. fold w1' w1 in W1.
    set (h := Rabs (1 - y) + Rabs y) in *.
    assert (SW : Rabs (w0' - w0) + Rabs (w1' - w1) <= Rabs (w' - w) * (h * (1 + 10 * u)) + Rabs w * (10 * u * h)).
    { assert (Q1 := Rmult_le_compat_l _ _ _ (Rabs_pos (w' - w)) F1). assert (Q2 := Rmult_le_compat_l _ _ _ (Rabs_pos w) F2). lra. }
    assert (SB : Rabs w0 + Rabs w1 = Rabs w * h) by (unfold w0, w1, h; rewrite !Rabs_mult; ring).
    clear - U HX HP HS M0 I0 I1 AA SW SB.
    set (r := Rabs (crun rd is ys' (fun js => V (S i :: js)) a1' w1' - (a1 + w1 * b1))) in *. clearbody r.
    set (d1 := Rabs (a1' - a1)) in *. clearbody d1. set (Ea := Rabs (a' - a)) in *. set (A := Rabs a) in *. set (A1 := Rabs a1) in *.
    set (E0 := Rabs (w0' - w0)) in *. set (E1 := Rabs (w1' - w1)) in *. set (Ew := Rabs (w' - w)) in *. set (B := Rabs w) in *. set (B0 := Rabs w0) in *. set (B1 := Rabs w1) in *.
    assert (G : 0 <= Ea /\ 0 <= A /\ 0 <= A1 /\ 0 <= E0 /\ 0 <= E1 /\ 0 <= Ew /\ 0 <= B /\ 0 <= B0 /\ 0 <= B1) by (repeat split; apply Rabs_pos).
    clearbody Ea A A1 E0 E1 Ew B B0 B1 X P H h.
    destruct G as (G1 & G2 & G3 & G4 & G5 & G6 & G7 & G8 & G9).
    set (Y := (1 + u) * X * P) in *. assert (HY : 1 <= Y). { assert (1 <= X * P) by nra. unfold Y. rewrite Rmult_assoc. nra. }
    assert (MH : 0 <= M * H) by nra.
    (* first half, then second half *)
    assert (T1 : X * d1 <= X * (X * Ea + (X - 1) * A + M * H * (Y * E0 + (Y - 1) * B0))) by (apply Rmult_le_compat_l; lra).
    assert (T2 : (X - 1) * A1 <= (X - 1) * (A + B0 * (H * M))) by (apply Rmult_le_compat_l; lra).
    replace ((1 + u) * (X * X) * ((1 + 10 * u) * P)) with ((1 + 10 * u) * (X * Y)) by (unfold Y; ring).
    replace (M * (h * H) * ((1 + 10 * u) * (X * Y) * Ew + ((1 + 10 * u) * (X * Y) - 1) * B)) with (M * H * (X * Y * (Ew * (h * (1 + 10 * u)) + B * (10 * u * h)) + (X * Y - 1) * (B * h))) by ring.
    assert (T3 : X * (Y * E0 + (Y - 1) * B0) + (X - 1) * B0 + (Y * E1 + (Y - 1) * B1) <= X * Y * (E0 + E1) + (X * Y - 1) * (B0 + B1)).
    { assert (0 <= (X - 1) * (Y * E1)) by (apply Rmult_le_pos; nra). assert (0 <= (X - 1) * (Y * B1)) by (apply Rmult_le_pos; nra). nra. }
    assert (T4 : X * Y * (E0 + E1) <= X * Y * (Ew * (h * (1 + 10 * u)) + B * (10 * u * h))) by (apply Rmult_le_compat_l; nra).
    rewrite SB in T3.
    assert (T5 : M * H * (X * (Y * E0 + (Y - 1) * B0) + (X - 1) * B0 + (Y * E1 + (Y - 1) * B1)) <= M * H * (X * Y * (Ew * (h * (1 + 10 * u)) + B * (10 * u * h)) + (X * Y - 1) * (B * h))) by (apply Rmult_le_compat_l; lra).
    lra.
Qed.
End Err.
