(** * Examples for C116 *)
From Coq Require Import Reals Lra Lia Psatz Bool List Arith ZArith.
From Flocq Require Import Core Relative.
From Verif Require Import Num CoreOps Inst CoreFlux M_units M_kepler M_tensor M_grid Spec_array Spec_light Spec_grid Spec_float Spec_float2 Spec_float3
  L_grid1 L_grid4 L_float10 L_float12 Ex_float Ex_float2.
Import ListNotations.
Open Scope R_scope.

(** double precision returns representable results without an error *)
Lemma double_exact : exact_on double (fun r => nearest r = r).
Proof. intros op x y r H. destruct op; cbn; try exact H. destruct (Req_EM_T y 0); [reflexivity|exact H]. Qed.
Lemma near_int (n : Z) : (Z.abs n < 2 ^ 53)%Z -> nearest (IZR n) = IZR n.
Proof.
  intro H. apply round_generic; [apply valid_rnd_N|]. apply generic_format_FLX. exists (Float radix2 n 0); [unfold F2R; cbn; lra|exact H].
Qed.
Lemma grid_double : forall gs values V coords s xs,
  List.Forall grid_ok gs -> grid_data gs values V -> test_points (length gs) s coords xs -> (forall js, on_grid gs js -> nearest (V js) = V js) ->
  exists Y, computed_interp double (map (map Fin) gs) values coords None = Ok Y /\ ash Y = Ok s /\
    forall i js, inside s i -> on_grid gs js -> xs i = grid_point gs js -> aget Y i = Fin (V js).
Proof.
  intros gs values V coords s xs HG HV HT HN. apply (grid_float_data half_ulp double (proj1 double_ok) gs values V coords s xs HG HV HT).
  intros op x y r H. apply double_exact. destruct H as [->|[->|(js & HJ & ->)]]; [apply (near_int 0); cbn; lia|apply (near_int 1); cbn; lia|apply HN; exact HJ].
Qed.
Lemma grid_float_example : accurate half_ulp double /\ List.Forall grid_ok ex_grid /\ grid_data ex_grid ex_values (fun js => INR (nth 0 js O) * 10 + INR (nth 1 js O)) /\
  test_points (length ex_grid) [4%nat] ex_coords (fun i => [INR (i O) / 2; 1]) /\ within ex_grid [INR 3 / 2; 1] /\ grid_error half_ulp (length ex_grid) <= / 10 ^ 14 /\
  (forall js, on_grid ex_grid js -> Rabs (INR (nth 0 js O) * 10 + INR (nth 1 js O)) <= 21 /\ nearest (INR (nth 0 js O) * 10 + INR (nth 1 js O)) = INR (nth 0 js O) * 10 + INR (nth 1 js O)) /\
  (* beyond the end of the first axis *)
  in_cell ex_grid [5; 1] [1; 0]%nat /\ stretch (fractions ex_grid [5; 1] [1; 0]%nat) = 3.
Proof.
  split; [apply double_ok|]. split; [exact ex_grid_ok|]. split; [exact ex_grid_data|]. split; [exact ex_points|].
  split. { repeat (constructor; [cbn; lra|]). constructor. }
  split. { unfold grid_error. cbn [length ex_grid Nat.pow Nat.mul Nat.add]. assert (H := half_ulp_small). assert (E := half_ulp_is). set (u := half_ulp) in *.
    assert (A : (1 + u) ^ 5 <= 1 + 6 * u). { assert (B : (1 + u) * (1 + u) <= 1 + 21 / 10 * u) by nra. assert (C : (1 + u) * (1 + u) * ((1 + u) * (1 + u)) <= (1 + 21 / 10 * u) * (1 + 21 / 10 * u)) by (apply Rmult_le_compat; nra).
      replace ((1 + u) ^ 5) with ((1 + u) * ((1 + u) * (1 + u) * ((1 + u) * (1 + u)))) by ring. assert (D : (1 + 21 / 10 * u) * (1 + 21 / 10 * u) <= 1 + 43 / 10 * u) by nra.
      apply Rle_trans with ((1 + u) * (1 + 43 / 10 * u)); [apply Rmult_le_compat_l; lra|]. nra. }
    assert (B : (1 + 10 * u) ^ 2 <= 1 + 21 * u) by nra.
    assert (C : (1 + u) ^ 5 * (1 + 10 * u) ^ 2 <= (1 + 6 * u) * (1 + 21 * u)) by (apply Rmult_le_compat; try apply pow_le; lra).
    assert (D : (1 + 6 * u) * (1 + 21 * u) <= 1 + 28 * u) by nra. rewrite E in *. lra. }
  split. { intros js HJ. inversion HJ as [|? j0 ? js0 H0 H1]; subst. inversion H1 as [|? j1 ? js1 H2 H3]; subst. inversion H3; subst. cbn [nth]. rewrite !INR_IZR_INZ.
    replace (IZR (Z.of_nat j0) * 10 + IZR (Z.of_nat j1)) with (IZR (Z.of_nat j0 * 10 + Z.of_nat j1)) by (rewrite plus_IZR, mult_IZR; ring). cbn in H0, H2.
    split; [|apply near_int; change (2 ^ 53)%Z with 9007199254740992%Z; lia]. rewrite <- abs_IZR. apply IZR_le. lia. }
  split. { constructor; [split; [cbn; lia|]; split; [right; cbn; lra|left; reflexivity]|]. constructor; [split; [cbn; lia|]; split; [left; reflexivity|left; reflexivity]|constructor]. }
  cbn [fractions stretch nth ex_grid]. replace ((5 - 1) / (3 - 1)) with 2 by field. replace ((1 - 0) / (2 - 0)) with (1 / 2) by field.
  replace (1 - 2) with (-1) by lra. replace (1 - 1 / 2) with (1 / 2) by lra. replace (Rabs (-1)) with 1 by (rewrite Rabs_left; lra). rewrite !Rabs_pos_eq by lra. lra.
Qed.

(** every result too large by the same factor: interpolating ones gives more than one *)
Definition too_large : rounder := fun _ _ _ r => r * (1 + 1 / 100).
Definition ones : tens := mkA (Ok [2%nat]) (fun _ => Fin 1).
Definition at_zero : tens := mkA (Ok [1; 1]%nat) (fun _ => Fin 0).
Lemma between_fails : ~ (forall u rd gs values V coords s xs, accurate u rd -> List.Forall grid_ok gs -> grid_data gs values V -> test_points (length gs) s coords xs ->
  exists Y, computed_interp rd (map (map Fin) gs) values coords None = Ok Y /\
    forall i is lo hi, inside s i -> within gs (xs i) -> in_cell gs (xs i) is -> (forall js, corner is js -> lo <= V js <= hi) -> exists v, aget Y i = Fin v /\ lo <= v <= hi).
Proof.
  intro H.
  assert (A : accurate (1 / 100) too_large). { split; [lra|]. intros op x y r. unfold too_large. replace (r * (1 + 1 / 100) - r) with (1 / 100 * r) by ring. rewrite Rabs_mult, (Rabs_pos_eq (1 / 100)) by lra. lra. }
  assert (G : List.Forall grid_ok [[0; 1]]). { repeat constructor. intros a b H1 H2. cbn in H2. destruct b as [|[|b]]; destruct a as [|a]; try lia; cbn; lra. }
  assert (D : grid_data [[0; 1]] ones (fun _ => 1)) by (split; [reflexivity|intros; reflexivity]).
  assert (T : test_points (length [[0; 1]]) [1%nat] at_zero (fun _ => [0])). { split; [reflexivity|]. intros i Hi. split; [reflexivity|]. intros [|n] Hn; [reflexivity|cbn in Hn; lia]. }
  destruct (H _ _ _ _ _ _ _ _ A G D T) as (Y & EY & HY).
  destruct (rgrid_core too_large (1 / 100) A [[0; 1]] ones _ at_zero [1%nat] _ G D T) as (Y' & EY' & _ & VY & _). rewrite EY in EY'. injection EY' as <-.
  set (i0 := fun _ : nat => 0%nat). assert (I0 : inside [1%nat] i0) by (intros [|d] Hd; unfold i0; cbn in *; lia).
  destruct (HY i0 [0%nat] 1 1 I0) as (v & E1 & E2).
  { constructor; [cbn; lra|constructor]. } { constructor; [split; [cbn; lia|]; split; [left; reflexivity|left; reflexivity]|constructor]. } { intros js _. lra. }
  rewrite (VY i0 I0) in E1. injection E1 as <-. revert E2. cbn [L_grid2.cells cfracs].
  assert (C : cellof [0; 1] 0 = 0%nat). { destruct (cellof_belongs [0; 1] 0) as (C1 & _); [inversion G; assumption|]. change (length [0; 1]) with 2%nat in C1. lia. }
  unfold cfrac. rewrite C. cbn [nth crun]. unfold clow, too_large. replace (0 - 0) with 0 by ring. unfold Rdiv at 3 4 5 6. rewrite !Rmult_0_l. lra.
Qed.
