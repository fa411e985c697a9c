(** * Grid interpolation: properties of the weighted sum over the corners *)
From Coq Require Import Reals List Bool Arith ZArith Lra Lia FunctionalExtensionality.
From Verif Require Import Num CoreOps Inst CoreFlux M_units M_kepler M_tensor M_simple M_ttv M_limbdark M_interpolated M_grid
  Spec_array Spec_light Spec_grid L_fl L_real L_shapeS L_grid1 L_grid2.
Import ListNotations.
Open Scope R_scope.

Definition part (g : list R) (x : R) (i : nat) : R := (x - nth i g 0) / (nth (S i) g 0 - nth i g 0).
Definition lerp (g : list R) (x : R) (i : nat) (u : nat -> R) : R := (1 - part g x i) * u i + part g x i * u (S i).
Lemma gap g i : grid_ok g -> (S i < length g)%nat -> 0 < nth (S i) g 0 - nth i g 0.
Proof. intros [_ H] L. assert (Q := H i (S i) ltac:(lia) L). lra. Qed.
Lemma incr_le g i j : grid_ok g -> (i <= j)%nat -> (j < length g)%nat -> nth i g 0 <= nth j g 0.
Proof. intros [_ H] L1 L2. destruct (Nat.eq_dec i j) as [->|N]; [lra|]. apply Rlt_le, H; lia. Qed.
Lemma lerp_any g x i j u : grid_ok g -> belongs g x i -> belongs g x j -> lerp g x i u = lerp g x j u.
Proof.
  intro HG. assert (W : forall i j, (i < j)%nat -> belongs g x i -> belongs g x j -> lerp g x i u = lerp g x j u).
  { clear i j. intros i j L (B1 & B2 & B3) (C1 & C2 & C3).
    destruct B3 as [B3|B3]; [lia|]. destruct C2 as [C2|C2]; [lia|].
    assert (E : j = S i).
    { destruct (Nat.eq_dec j (S i)) as [E|N]; [exact E|]. exfalso. destruct HG as [_ HG]. assert (Q := HG (S i) j ltac:(lia) ltac:(lia)). lra. }
    subst j. assert (x = nth (S i) g 0) by lra. assert (G1 := gap g i HG B1). assert (G2 := gap g (S i) HG C1).
    unfold lerp, part. subst x. field. lra. }
  intros Bi Bj. destruct (Nat.lt_trichotomy i j) as [L|[->|L]]; [apply W; assumption|reflexivity|symmetry; apply W; assumption].
Qed.
Lemma blend_lerp g gs x xs i is V : blend (i :: is) (fractions (g :: gs) (x :: xs) (i :: is)) V
  = lerp g x i (fun j => blend is (fractions gs xs is) (fun js => V (j :: js))).
Proof. reflexivity. Qed.
Lemma blend_cell gs xs is is' : List.Forall grid_ok gs -> in_cell gs xs is -> in_cell gs xs is' ->
  forall V, blend is (fractions gs xs is) V = blend is' (fractions gs xs is') V.
Proof.
  intros HG H. revert is' HG. induction H as [|g gs x xs i is B H IH]; intros is' HG H' V; inversion H'; subst; [reflexivity|].
  inversion HG; subst. rewrite !blend_lerp.
  erewrite (lerp_any g x i) by eassumption. unfold lerp. rewrite !(IH _ ltac:(assumption) ltac:(eassumption)). reflexivity.
Qed.
Lemma multilinear_cons n F x : multilinear (S n) F -> multilinear n (fun l => F (x :: l)).
Proof. intros H l1 l2 a b c L. exact (H (x :: l1) l2 a b c ltac:(cbn [length]; lia)). Qed.
Lemma blend_multilinear gs xs is : List.Forall grid_ok gs -> in_cell gs xs is -> forall F V, multilinear (length gs) F ->
  (forall js, corner is js -> V js = F (grid_point gs js)) -> blend is (fractions gs xs is) V = F xs.
Proof.
  intros HG H. induction H as [|g gs x xs i is B H IH]; intros F V HF HV.
  - cbn. apply HV. constructor.
  - inversion HG; subst. rewrite blend_lerp. unfold lerp.
    assert (L : length xs = length gs) by (clear - H; induction H; cbn; congruence).
    rewrite (IH ltac:(assumption) (fun l => F (nth i g 0 :: l)) (fun js => V (i :: js)) (multilinear_cons _ _ _ HF)).
    2: { intros js Hj. apply (HV (i :: js)). constructor; [left; reflexivity|exact Hj]. }
    rewrite (IH ltac:(assumption) (fun l => F (nth (S i) g 0 :: l)) (fun js => V (S i :: js)) (multilinear_cons _ _ _ HF)).
    2: { intros js Hj. apply (HV (S i :: js)). constructor; [right; reflexivity|exact Hj]. }
    assert (Q := HF [] xs (nth i g 0) (nth (S i) g 0) (part g x i) ltac:(cbn [length]; lia)). cbn [app] in Q. rewrite <- Q. do 2 f_equal.
    destruct B as [B _]. assert (G := gap g i ltac:(assumption) B). unfold part. field. lra.
Qed.
Lemma blend_convex gs xs is : List.Forall grid_ok gs -> in_cell gs xs is -> within gs xs -> forall V lo hi,
  (forall js, corner is js -> lo <= V js <= hi) -> lo <= blend is (fractions gs xs is) V <= hi.
Proof.
  intros HG H. induction H as [|g gs x xs i is B H IH]; intros HW V lo hi HV.
  - cbn. apply HV. constructor.
  - inversion HG; subst. inversion HW as [|? ? ? ? W1 W2]; subst. rewrite blend_lerp. unfold lerp.
    assert (A := IH ltac:(assumption) W2 (fun js => V (i :: js)) lo hi (fun js Hj => HV (i :: js) (Forall2_cons _ _ (or_introl eq_refl) Hj))).
    assert (C := IH ltac:(assumption) W2 (fun js => V (S i :: js)) lo hi (fun js Hj => HV (S i :: js) (Forall2_cons _ _ (or_intror eq_refl) Hj))).
    destruct B as (B1 & B2 & B3). assert (G := gap g i ltac:(assumption) B1).
    assert (Y : 0 <= part g x i <= 1).
    { rewrite last_nth in W1. unfold part.
      assert (X0 : nth i g 0 <= x) by (destruct B2 as [->|B2]; lra).
      assert (X1 : x <= nth (S i) g 0) by (destruct B3 as [B3|B3]; [replace (S i) with (length g - 1)%nat by lia|]; lra).
      split; [apply Rmult_le_pos; [lra|apply Rlt_le, Rinv_0_lt_compat, G]|].
      apply Rmult_le_reg_r with (nth (S i) g 0 - nth i g 0); [exact G|]. unfold Rdiv. rewrite Rmult_assoc, Rinv_l by lra. lra. }
    set (y := part g x i) in *. set (p := blend _ _ _) in *. set (q := blend _ _ _) in *. clearbody y p q. split; nra.
Qed.

(** ** continuity *)
Lemma finite_bound (f : nat -> R) m : exists B, 0 <= B /\ forall i, (i < m)%nat -> Rabs (f i) <= B.
Proof.
  induction m as [|m (B & B0 & IH)]; [exists 0; split; [lra|intros; lia]|].
  exists (B + Rabs (f m)). assert (P := Rabs_pos (f m)). split; [lra|]. intros i Hi.
  destruct (Nat.eq_dec i m) as [->|N]; [lra|]. assert (Q := IH i ltac:(lia)). lra.
Qed.
Lemma finite_min (P : nat -> R -> Prop) m : (forall i, (i < m)%nat -> exists d, 0 < d /\ P i d) ->
  (forall i d d', P i d -> 0 < d' <= d -> P i d') -> exists d, 0 < d /\ forall i, (i < m)%nat -> P i d.
Proof.
  intros H M. induction m as [|m IH]; [exists 1; split; [lra|intros; lia]|].
  destruct IH as (d & D0 & D1); [intros; apply H; lia|]. destruct (H m) as (e & E0 & E1); [lia|].
  exists (Rmin d e). assert (0 < Rmin d e) by (apply Rmin_glb_lt; assumption). split; [assumption|].
  intros i Hi. destruct (Nat.eq_dec i m) as [->|N].
  - apply (M m e); [exact E1|]. split; [assumption|apply Rmin_r].
  - apply (M i d); [apply D1; lia|]. split; [assumption|apply Rmin_l].
Qed.
Definition slope g (u : nat -> R) i := (u (S i) - u i) / (nth (S i) g 0 - nth i g 0).
Lemma lerp_slope g x i u : lerp g x i u = u i + slope g u i * (x - nth i g 0).
Proof. unfold lerp, part, slope, Rdiv. ring. Qed.
Lemma lerp_lipschitz g u K : grid_ok g -> 0 <= K -> (forall i, (S i < length g)%nat -> Rabs (slope g u i) <= K) ->
  forall x x' i i', belongs g x i -> belongs g x' i' -> Rabs (lerp g x i u - lerp g x' i' u) <= K * Rabs (x - x').
Proof.
  intros HG K0 HK.
  assert (S1 : forall i x x', (S i < length g)%nat -> Rabs (lerp g x i u - lerp g x' i u) <= K * Rabs (x - x')).
  { intros i x x' Hi. rewrite !lerp_slope.
    replace (u i + slope g u i * (x - nth i g 0) - (u i + slope g u i * (x' - nth i g 0))) with (slope g u i * (x - x')) by ring.
    rewrite Rabs_mult. apply Rmult_le_compat_r; [apply Rabs_pos|apply HK, Hi]. }
  assert (W : forall n i x x', belongs g x i -> belongs g x' (i + n) -> x <= x' -> Rabs (lerp g x i u - lerp g x' (i + n) u) <= K * Rabs (x - x')).
  { induction n as [|n IH]; intros i x x' B B' L.
    - rewrite Nat.add_0_r. apply S1, B.
    - destruct B as (B1 & B2 & B3). destruct B' as (C1 & C2 & C3).
      destruct B3 as [B3|B3]; [lia|]. destruct C2 as [C2|C2]; [lia|].
      set (p := nth (S i) g 0) in *.
      assert (Lp : p <= x') by (assert (Q := incr_le g (S i) (i + S n) HG ltac:(lia) ltac:(lia)); unfold p; lra).
      assert (P1 : belongs g p i) by (split; [exact B1|]; split; [right; apply Rlt_le; assert (Q := gap g i HG B1); unfold p; lra|right; unfold p; lra]).
      assert (P2 : belongs g p (S i)) by (split; [lia|]; split; [right; unfold p; lra|right; apply Rlt_le; assert (Q := gap g (S i) HG ltac:(lia)); unfold p; lra]).
      assert (Q1 := S1 i x p B1).
      assert (Q2 := IH (S i) p x' P2). replace (S i + n)%nat with (i + S n)%nat in Q2 by lia.
      specialize (Q2 (conj C1 (conj (or_intror C2) C3)) Lp).
      rewrite (lerp_any g p i (S i) u HG P1 P2) in Q1.
      replace (lerp g x i u - lerp g x' (i + S n) u) with ((lerp g x i u - lerp g p (S i) u) + (lerp g p (S i) u - lerp g x' (i + S n) u)) by ring.
      assert (T := Rabs_triang (lerp g x i u - lerp g p (S i) u) (lerp g p (S i) u - lerp g x' (i + S n) u)).
      rewrite (Rabs_left1 (x - p)) in Q1 by lra. rewrite (Rabs_left1 (p - x')) in Q2 by lra. rewrite (Rabs_left1 (x - x')) by lra. lra. }
  assert (M : forall x x' i i', x <= x' -> belongs g x i -> belongs g x' i' -> Rabs (lerp g x i u - lerp g x' i' u) <= K * Rabs (x - x')).
  { intros x x' i i' L B B'. destruct (le_lt_dec i i') as [Q|Q].
    - replace i' with (i + (i' - i))%nat by lia. apply W; [exact B| |exact L]. replace (i + (i' - i))%nat with i' by lia. exact B'.
    - (* i' < i: then x = x' = the common end *)
      assert (EX : x = x').
      { destruct B as (B1 & B2 & B3). destruct B' as (C1 & C2 & C3). destruct B2 as [B2|B2]; [lia|]. destruct C3 as [C3|C3]; [lia|].
        assert (Z := incr_le g (S i') i HG ltac:(lia) ltac:(lia)). lra. }
      subst x'. rewrite (lerp_any g x i i' u HG B B'). rewrite !Rminus_eq_0, Rabs_R0. lra. }
  intros x x' i i' B B'. destruct (Rle_dec x x') as [L|L]; [apply M; assumption|].
  rewrite Rabs_minus_sym, (Rabs_minus_sym x x'). apply M; try assumption. lra.
Qed.
Definition gval (gs : list (list R)) (V : list nat -> R) (xs : list R) : R := blend (cells gs xs) (fractions gs xs (cells gs xs)) V.
Lemma gval_cons g gs V x xs : gval (g :: gs) V (x :: xs) = lerp g x (cellof g x) (fun j => gval gs (fun js => V (j :: js)) xs).
Proof. reflexivity. Qed.
Lemma closer_mono d d' xs ys : closer d' xs ys -> d' <= d -> closer d xs ys.
Proof. unfold closer. intros H L. induction H; constructor; [lra|assumption]. Qed.
Lemma gval_continuous gs : List.Forall grid_ok gs -> forall V xs eps, length xs = length gs -> 0 < eps ->
  exists del, 0 < del /\ forall ys, closer del xs ys -> Rabs (gval gs V xs - gval gs V ys) < eps.
Proof.
  intro HG. induction HG as [|g gs Hg HG IH]; intros V xs eps L E.
  - exists 1. split; [lra|]. intros ys _. unfold gval. cbn. rewrite Rminus_eq_0, Rabs_R0. exact E.
  - destruct xs as [|x xs]; [discriminate|]. cbn [length] in L.
    set (u := fun j => gval gs (fun js => V (j :: js)) xs).
    destruct (finite_bound (slope g u) (length g)) as (K & K0 & HK).
    destruct (finite_bound (fun i => (Rabs x + 1 + Rabs (nth i g 0)) / (nth (S i) g 0 - nth i g 0)) (length g)) as (B & B0 & HB).
    destruct (finite_min (fun j d => forall ys, closer d xs ys -> Rabs (u j - gval gs (fun js => V (j :: js)) ys) < eps / (2 * (1 + 2 * B))) (length g)) as (d1 & D1 & HD).
    { intros j Hj. apply IH; [lia|]. apply Rdiv_lt_0_compat; lra. }
    { intros j d d' H Hd ys Hys. apply H. apply (closer_mono d d'); [exact Hys|lra]. }
    exists (Rmin 1 (Rmin d1 (eps / (2 * (K + 1))))).
    assert (P2 : 0 < eps / (2 * (K + 1))) by (apply Rdiv_lt_0_compat; lra).
    split; [repeat apply Rmin_glb_lt; lra|].
    intros ys HC. inversion HC as [|? y ? ys' C1 C2]; subst. rewrite !gval_cons.
    assert (M1 := Rmin_l 1 (Rmin d1 (eps / (2 * (K + 1))))). assert (M2 := Rmin_r 1 (Rmin d1 (eps / (2 * (K + 1))))).
    assert (M3 := Rmin_l d1 (eps / (2 * (K + 1)))). assert (M4 := Rmin_r d1 (eps / (2 * (K + 1)))).
    fold u. set (w := fun j => gval gs (fun js => V (j :: js)) ys').
    assert (Bx := cellof_belongs g x Hg). assert (By := cellof_belongs g y Hg).
    set (i := cellof g x) in *. set (i' := cellof g y) in *. clearbody i i'.
    assert (A1 : Rabs (lerp g x i u - lerp g y i' u) <= K * Rabs (x - y)).
    { apply lerp_lipschitz; try assumption. intros k Hk. apply HK. lia. }
    assert (A2 : Rabs (lerp g y i' u - lerp g y i' w) <= (1 + 2 * B) * (eps / (2 * (1 + 2 * B)))).
    { destruct By as (By & _). assert (G := gap g i' Hg By).
      assert (Yb : Rabs (part g y i') <= B).
      { unfold part. unfold Rdiv. rewrite Rabs_mult, (Rabs_pos_eq (/ _)) by (apply Rlt_le, Rinv_0_lt_compat, G).
        eapply Rle_trans; [|apply (HB i'); lia]. rewrite (Rabs_pos_eq ((Rabs x + 1 + Rabs (nth i' g 0)) / (nth (S i') g 0 - nth i' g 0))).
        { unfold Rdiv. apply Rmult_le_compat_r; [apply Rlt_le, Rinv_0_lt_compat, G|].
          replace (y - nth i' g 0) with (- (x - y) + x + - nth i' g 0) by ring.
          assert (T1 := Rabs_triang (- (x - y) + x) (- nth i' g 0)). assert (T2 := Rabs_triang (- (x - y)) x).
          rewrite !Rabs_Ropp in *. lra. }
        { apply Rmult_le_pos; [|apply Rlt_le, Rinv_0_lt_compat, G]. assert (Q1 := Rabs_pos x). assert (Q2 := Rabs_pos (nth i' g 0)). lra. } }
      assert (C3 : closer d1 xs ys') by (apply (closer_mono d1 _ _ _ C2); lra).
      assert (U0 := HD i' ltac:(lia) ys' C3). assert (U1 := HD (S i') By ys' C3).
      fold (w i') in U0. fold (w (S i')) in U1.
      set (e := eps / (2 * (1 + 2 * B))) in *.
      unfold lerp. set (p := part g y i') in *.
      replace ((1 - p) * u i' + p * u (S i') - ((1 - p) * w i' + p * w (S i'))) with ((1 - p) * (u i' - w i') + p * (u (S i') - w (S i'))) by ring.
      eapply Rle_trans; [apply Rabs_triang|]. rewrite !Rabs_mult.
      assert (T3 : Rabs (1 - p) <= 1 + B).
      { unfold Rminus. eapply Rle_trans; [apply Rabs_triang|]. rewrite Rabs_R1, Rabs_Ropp. lra. }
      assert (E1 : Rabs (1 - p) * Rabs (u i' - w i') <= (1 + B) * e) by (apply Rmult_le_compat; try apply Rabs_pos; lra).
      assert (E2 : Rabs p * Rabs (u (S i') - w (S i')) <= B * e) by (apply Rmult_le_compat; try apply Rabs_pos; lra).
      lra. }
    replace ((1 + 2 * B) * (eps / (2 * (1 + 2 * B)))) with (eps / 2) in A2 by (field; lra).
    assert (A3 : K * Rabs (x - y) < eps / 2).
    { assert (K * Rabs (x - y) <= K * (eps / (2 * (K + 1)))) by (apply Rmult_le_compat_l; lra).
      assert (K * (eps / (2 * (K + 1))) = eps / 2 * (K / (K + 1))) by (field; lra).
      assert (K / (K + 1) < 1) by (apply Rmult_lt_reg_r with (K + 1); [lra|]; unfold Rdiv; rewrite Rmult_assoc, Rinv_l by lra; lra).
      assert (eps / 2 * (K / (K + 1)) < eps / 2 * 1) by (apply Rmult_lt_compat_l; lra). lra. }
    replace (lerp g x i u - lerp g y i' w) with ((lerp g x i u - lerp g y i' u) + (lerp g y i' u - lerp g y i' w)) by ring.
    eapply Rle_lt_trans; [apply Rabs_triang|]. lra.
Qed.
