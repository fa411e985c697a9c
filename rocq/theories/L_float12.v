(** * Rounding errors in grid interpolation: the results *)
From Coq Require Import Reals List Bool Arith ZArith Lra Lia Psatz.
From Verif Require Import Num CoreOps Inst CoreFlux M_units M_kepler M_tensor M_simple M_ttv M_limbdark M_interpolated M_grid
  Spec_array Spec_light Spec_grid Spec_float Spec_float2 Spec_float3 L_fl L_real L_shapeS L_grid1 L_grid2 L_grid3 L_grid4 L_float10 L_float11.
Import ListNotations.
Open Scope R_scope.

Lemma fracs_length gs xs : length xs = length gs -> length (fracs gs xs) = length gs /\ length (cells gs xs) = length gs.
Proof. revert xs. induction gs as [|g gs IH]; intros [|x xs] L; try discriminate; [split; reflexivity|]. cbn in *. destruct (IH xs ltac:(lia)) as [A B]. rewrite A, B. split; reflexivity. Qed.

Lemma grid_float_error : forall u rd, accurate u rd -> forall gs values V coords s xs,
  List.Forall grid_ok gs -> grid_data gs values V -> test_points (length gs) s coords xs ->
  exists Y Y', regular_grid_interp (map (map Fin) gs) values coords None = Ok Y /\ ash Y = Ok s /\
    computed_interp rd (map (map Fin) gs) values coords None = Ok Y' /\ ash Y' = Ok s /\
    forall i M H, inside s i -> (forall is js, in_cell gs (xs i) is -> corner is js -> Rabs (V js) <= M) ->
      (forall is, in_cell gs (xs i) is -> stretch (fractions gs (xs i) is) <= H) ->
      exists v v', aget Y i = Fin v /\ aget Y' i = Fin v' /\ Rabs (v' - v) <= grid_error u (length gs) * M * H.
Proof.
  intros u rd acc gs values V coords s xs HG HV HT.
  destruct (grid_scalar gs values V coords s xs HG HV HT None) as (Y & EY & SY & VY).
  destruct (rgrid_core rd u acc gs values V coords s xs HG HV HT) as (Y' & EY' & SY' & VY' & _).
  exists Y, Y'. do 4 (split; [assumption|]). intros i M H Hi HM HH.
  destruct (VY i Hi) as [_ V2]. exists (gval gs V (xs i)), (crun rd (cells gs (xs i)) (cfracs rd gs (xs i)) V 0 1).
  split; [apply V2; left; reflexivity|]. split; [apply VY'; exact Hi|].
  destruct HT as [_ HT]. destruct (HT i Hi) as [L _]. destruct (fracs_length gs (xs i) L) as [L1 L2]. assert (CI := cells_in gs (xs i) HG L).
  assert (E := run_error rd u acc _ _ (cfracs_near rd u acc gs (xs i) HG L) (cells gs (xs i)) V M 0 0 1 1 ltac:(lia) (fun js J => HM _ js CI J)).
  cbv zeta in E. rewrite L1 in E. replace (0 - 0) with 0 in E by ring. replace (1 - 1) with 0 in E by ring. rewrite Rabs_R0, Rabs_R1, !Rmult_0_r, Rmult_1_r, !Rplus_0_l, Rmult_1_l in E.
  unfold gval. rewrite <- fracs_fractions. eapply Rle_trans; [exact E|]. unfold grid_error. rewrite pow_add, pow_1.
  assert (HS := HH _ CI). rewrite <- fracs_fractions in HS.
  assert (M0 : 0 <= M). { assert (J : corner (cells gs (xs i)) (cells gs (xs i))). { clear. induction (cells gs (xs i)) as [|k l IH]; constructor; [left; reflexivity|exact IH]. } specialize (HM _ _ CI J). assert (Q := Rabs_pos (V (cells gs (xs i)))). lra. }
  assert (U := proj1 acc). set (X := (1 + u) ^ 2 ^ length gs) in *. set (P := (1 + 10 * u) ^ length gs) in *.
  assert (1 <= X) by (apply pow1; lra). assert (1 <= P) by (apply pow1; lra).
  replace (X * (1 + u) * P - 1) with ((1 + u) * X * P - 1) by ring. assert (1 <= (1 + u) * X * P). { rewrite Rmult_assoc. assert (1 <= X * P) by nra. nra. }
  rewrite Rmult_comm, <- Rmult_assoc. apply Rmult_le_compat_l; [apply Rmult_le_pos; lra|exact HS].
Qed.

(** inside the grid the fractions are between 0 and 1 *)
Lemma stretch_within gs xs is : List.Forall grid_ok gs -> within gs xs -> in_cell gs xs is -> stretch (fractions gs xs is) = 1.
Proof.
  intros HG HW HI. revert HG HW. induction HI as [|g gs x xs i is B HI IH]; intros HG HW; [reflexivity|]. inversion HG as [|? ? Hg HG']; subst. inversion HW as [|? ? ? ? W HW']; subst.
  cbn [fractions stretch]. rewrite (IH HG' HW'), Rmult_1_r. destruct B as (B1 & B2 & B3). destruct Hg as [G1 G2]. assert (Q := G2 i (S i) ltac:(lia) B1).
  assert (A : nth i g 0 <= x) by (destruct B2 as [->|B2]; lra).
  assert (C : x <= nth (S i) g 0). { destruct B3 as [B3|B3]; [|exact B3]. rewrite last_nth in W. replace (length g - 1)%nat with (S i) in W by lia. lra. }
  set (y := (x - nth i g 0) / (nth (S i) g 0 - nth i g 0)).
  assert (0 <= y <= 1). { unfold y. split; [apply Rmult_le_pos; [lra|apply Rlt_le, Rinv_0_lt_compat; lra]|]. apply Rmult_le_reg_r with (nth (S i) g 0 - nth i g 0); [lra|]. unfold Rdiv. rewrite Rmult_assoc, Rinv_l by lra. lra. }
  rewrite !Rabs_pos_eq by lra. ring.
Qed.
Lemma grid_float_within : forall u rd, accurate u rd -> forall gs values V coords s xs,
  List.Forall grid_ok gs -> grid_data gs values V -> test_points (length gs) s coords xs ->
  exists Y Y', regular_grid_interp (map (map Fin) gs) values coords None = Ok Y /\ ash Y = Ok s /\
    computed_interp rd (map (map Fin) gs) values coords None = Ok Y' /\ ash Y' = Ok s /\
    forall i M, inside s i -> within gs (xs i) -> (forall is js, in_cell gs (xs i) is -> corner is js -> Rabs (V js) <= M) ->
      exists v v', aget Y i = Fin v /\ aget Y' i = Fin v' /\ Rabs (v' - v) <= grid_error u (length gs) * M.
Proof.
  intros u rd acc gs values V coords s xs HG HV HT. destruct (grid_float_error u rd acc gs values V coords s xs HG HV HT) as (Y & Y' & E1 & E2 & E3 & E4 & H).
  exists Y, Y'. do 4 (split; [assumption|]). intros i M Hi HW HM.
  destruct (H i M 1 Hi HM) as (v & v' & A & B & C). { intros is HI. rewrite (stretch_within gs (xs i) is HG HW HI). lra. }
  exists v, v'. rewrite Rmult_1_r in C. auto.
Qed.
Lemma grid_float_fill : forall u rd, accurate u rd -> forall gs values V coords s xs f,
  List.Forall grid_ok gs -> grid_data gs values V -> test_points (length gs) s coords xs ->
  exists Y Z, computed_interp rd (map (map Fin) gs) values coords (Some f) = Ok Y /\ ash Y = Ok s /\
    computed_interp rd (map (map Fin) gs) values coords None = Ok Z /\ ash Z = Ok s /\
    forall i, inside s i -> (filled gs (xs i) -> aget Y i = f) /\ (~ filled gs (xs i) -> aget Y i = aget Z i).
Proof.
  intros u rd acc gs values V coords s xs f HG HV HT. destruct (rgrid_core rd u acc gs values V coords s xs HG HV HT) as (Y' & EY' & SY' & _ & F).
  destruct (F f) as (Z & A & B & C). exists Z, Y'. auto.
Qed.

(** ** at grid points *)
Section Exact.
Variable rd : rounder.
Variable u : R.
Hypothesis acc : accurate u rd.
Variable P : R -> Prop.
Hypothesis P0 : P 0.
Hypothesis P1 : P 1.
Hypothesis ex : exact_on rd P.
Definition pick (i : nat) (y : R) (j : nat) : Prop := (y = 0 /\ j = i) \/ (y = 1 /\ j = S i).
Lemma clow_0 : clow rd 0 = 1.
Proof. unfold clow. cbv zeta. rewrite (ex OLit 1 0 1 P1), Rminus_0_r. apply ex, P1. Qed.
Lemma clow_1 : clow rd 1 = 0.
Proof. unfold clow. cbv zeta. rewrite (ex OLit 1 0 1 P1). replace (1 - 1) with 0 by ring. apply ex, P0. Qed.
Lemma run_zero is ys : List.Forall (fun y => y = 0 \/ y = 1) ys -> length is = length ys -> forall V a, P a -> crun rd is ys V a 0 = a.
Proof.
  intro HF. revert is. induction HF as [|y ys Hy HF IH]; intros [|i is] L V a Ha; try discriminate.
  - cbn [crun]. cbv zeta. rewrite Rmult_0_r, (ex OMul (V []) 0 0 P0), Rplus_0_r. apply ex, Ha.
  - cbn [crun]. rewrite !Rmult_0_l, !(ex OMul _ _ 0 P0). assert (L' : length is = length ys) by (cbn in L; lia). rewrite (IH is L' (fun js => V (i :: js)) a Ha). apply IH; assumption.
Qed.
Lemma run_pick is ys js : length is = length ys -> Forall2 (fun (p : nat * R) j => pick (fst p) (snd p) j) (combine is ys) js -> forall V, P (V js) -> crun rd is ys V 0 1 = V js.
Proof.
  revert is js. induction ys as [|y ys IH]; intros [|i is] js L HF V HV; try discriminate.
  - inversion HF; subst. cbn [crun]. cbv zeta. rewrite Rmult_1_r, (ex OMul (V []) 1 (V []) HV), Rplus_0_l. apply ex, HV.
  - cbn [combine] in HF. inversion HF as [|? j ? js' Hj HF']; subst. cbn [fst snd] in Hj. cbn [crun]. rewrite !Rmult_1_l.
    assert (Z : List.Forall (fun y => y = 0 \/ y = 1) ys).
    { assert (L0 : length is = length ys) by (cbn in L; lia). clear - HF' L0. rename L0 into L. revert is js' L HF'. induction ys as [|z ys IH]; intros [|i0 is] js L HF; try discriminate; constructor; cbn [combine] in HF; inversion HF as [|? ? ? ? Hz ?]; subst; [destruct Hz as [[E _]|[E _]]; auto|apply (IH is _ ltac:(cbn in L; lia) ltac:(eassumption))]. }
    destruct Hj as [[-> ->]|[-> ->]].
    + rewrite clow_0, (ex OMul 1 1 1 P1), (ex OMul 1 0 0 P0). rewrite (IH is js' ltac:(cbn in L; lia) HF' (fun js => V (i :: js)) HV). apply run_zero; [exact Z|cbn in L; lia|exact HV].
    + rewrite clow_1, (ex OMul 1 0 0 P0), (ex OMul 1 1 1 P1). rewrite run_zero by (try assumption; cbn in L; lia). apply (IH is js' ltac:(cbn in L; lia) HF' (fun js => V (S i :: js)) HV).
Qed.
Lemma pick_grid gs js : List.Forall grid_ok gs -> on_grid gs js ->
  Forall2 (fun (p : nat * R) j => pick (fst p) (snd p) j) (combine (cells gs (grid_point gs js)) (cfracs rd gs (grid_point gs js))) js.
Proof.
  intros HG HJ. induction HJ as [|g j gs js Hj HJ IH]; [constructor|]. inversion HG as [|? ? Hg HG']; subst.
  cbn [grid_point cells cfracs combine]. constructor; [|apply IH; exact HG']. cbn [fst snd].
  destruct (cellof_belongs g (nth j g 0) Hg) as (B1 & B2 & B3). destruct Hg as [G1 G2]. set (c := cellof g (nth j g 0)) in *.
  assert (C : j = c \/ j = S c).
  { destruct (lt_eq_lt_dec j c) as [[H|H]|H]; [|left; exact H|].
    - exfalso. destruct B2 as [B2|B2]; [lia|]. assert (Q := G2 j c H ltac:(lia)). lra.
    - right. destruct (lt_eq_lt_dec j (S c)) as [[K|K]|K]; [lia|exact K|]. exfalso. destruct B3 as [B3|B3]; [lia|]. assert (Q := G2 (S c) j K Hj). lra. }
  assert (Q := G2 c (S c) ltac:(lia) B1). unfold cfrac. fold c. cbv zeta.
  assert (NZ : rd OSub (nth (S c) g 0) (nth c g 0) (nth (S c) g 0 - nth c g 0) <> 0) by (apply (rd_nz rd u acc); lra).
  destruct C as [C|C]; rewrite C.
  - left. split; [|reflexivity]. rewrite Rminus_diag_eq by reflexivity. rewrite (ex OSub _ _ 0 P0). unfold Rdiv. rewrite Rmult_0_l. apply ex, P0.
  - right. split; [|reflexivity]. unfold Rdiv. rewrite Rinv_r by exact NZ. apply ex, P1.
Qed.
End Exact.
Lemma grid_float_data : forall u rd, accurate u rd -> forall gs values V coords s xs,
  List.Forall grid_ok gs -> grid_data gs values V -> test_points (length gs) s coords xs ->
  exact_on rd (fun r => r = 0 \/ r = 1 \/ exists js, on_grid gs js /\ r = V js) ->
  exists Y, computed_interp rd (map (map Fin) gs) values coords None = Ok Y /\ ash Y = Ok s /\
    forall i js, inside s i -> on_grid gs js -> xs i = grid_point gs js -> aget Y i = Fin (V js).
Proof.
  intros u rd acc gs values V coords s xs HG HV HT ex. destruct (rgrid_core rd u acc gs values V coords s xs HG HV HT) as (Y & EY & SY & VY & _).
  exists Y. split; [exact EY|]. split; [exact SY|]. intros i js Hi HJ E. rewrite (VY i Hi). f_equal.
  destruct HT as [_ HT]. destruct (HT i Hi) as [L _]. destruct (fracs_length gs (xs i) L) as [_ L2].
  assert (L3 : length (cfracs rd gs (xs i)) = length gs). { clear - L. revert L. generalize (xs i). induction gs as [|g gs IH]; intros [|x l] L; try discriminate; [reflexivity|]. cbn. rewrite IH by (cbn in L; lia). reflexivity. }
  rewrite E in *. set (P := fun r => r = 0 \/ r = 1 \/ exists js, on_grid gs js /\ r = V js) in *.
  apply (run_pick rd P); unfold P; eauto; [lia|]. apply (pick_grid rd u acc P); unfold P; eauto.
Qed.
