(** * Integrals over half lines, lines and the plane of a radial weight *)
From Coq Require Import Reals Lra Lia Psatz.
From Coquelicot Require Import Coquelicot.
From Verif Require Import Spec_plane L_real L_area L_prior L_wedge.
Open Scope R_scope.

(** ** the integral from zero to infinity *)
Definition half (f : R -> R) (v : R) : Prop := exists B, (forall y, 0 <= y -> is_RInt f 0 y (B y)) /\ forall eps, 0 < eps -> exists M, forall y, M <= y -> 0 <= y -> Rabs (B y - v) < eps.
Lemma half_ext f g v : (forall a, 0 < a -> f a = g a) -> half f v -> half g v.
Proof.
  intros E (B & H1 & H2). exists B. split; [|exact H2]. intros y Hy. apply (is_RInt_ext f); [|apply H1; exact Hy].
  intros x Hx. rewrite Rmin_left in Hx by exact Hy. apply E. lra.
Qed.
Lemma half_plus f g u v : half f u -> half g v -> half (fun a => f a + g a) (u + v).
Proof.
  intros (B & H1 & H2) (D & K1 & K2). exists (fun y => B y + D y). split.
  - intros y Hy. apply (is_RInt_plus (V := R_NormedModule) f g); auto.
  - intros eps He. destruct (H2 (eps / 2) ltac:(lra)) as (M & HM). destruct (K2 (eps / 2) ltac:(lra)) as (N & HN). exists (Rmax M N). intros y Hy Hp.
    assert (Q1 := Rmax_l M N). assert (Q2 := Rmax_r M N). specialize (HM y ltac:(lra) Hp). specialize (HN y ltac:(lra) Hp).
    replace (B y + D y - (u + v)) with ((B y - u) + (D y - v)) by ring. eapply Rle_lt_trans; [apply Rabs_triang|]. lra.
Qed.
Lemma half_opp f u : half f u -> half (fun a => - f a) (- u).
Proof.
  intros (B & H1 & H2). exists (fun y => - B y). split.
  - intros y Hy. apply (is_RInt_opp (V := R_NormedModule) f). auto.
  - intros eps He. destruct (H2 eps He) as (M & HM). exists M. intros y Hy Hp. replace (- B y - - u) with (- (B y - u)) by ring. rewrite Rabs_Ropp. auto.
Qed.
Lemma half_zero : half (fun _ => 0) 0.
Proof.
  exists (fun _ => 0). split.
  - intros y Hy. evar_last. apply (is_RInt_const (V := R_NormedModule) 0 y 0). unfold scal; cbn; unfold mult; cbn. ring.
  - intros eps He. exists 0. intros y _ _. rewrite Rminus_0_r, Rabs_R0. exact He.
Qed.
Lemma line_of f u v : half f u -> half (fun a => f (- a)) v -> over_line f (u + v).
Proof.
  intros (B & H1 & H2) (D & K1 & K2) Q HQ. destruct HQ as (eps & Heps).
  destruct (H2 (eps / 2) ltac:(generalize (cond_pos eps); lra)) as (M & HM). destruct (K2 (eps / 2) ltac:(generalize (cond_pos eps); lra)) as (N & HN).
  exists (fun x => x < Rmin (- N) 0) (fun y => Rmax M 0 < y).
  - exists (Rmin (- N) 0). intros x Hx. exact Hx.
  - exists (Rmax M 0). intros y Hy. exact Hy.
  - intros x y Hx Hy. cbn [fst snd]. exists (B y + D (- x)).
    assert (Q1 := Rmax_l M 0). assert (Q2 := Rmax_r M 0). assert (Q3 := Rmin_l (- N) 0). assert (Q4 := Rmin_r (- N) 0). split.
    + assert (I1 : is_RInt f x 0 (D (- x))).
      { assert (K := K1 (- x) ltac:(lra)). apply (is_RInt_comp_opp (V := R_NormedModule) (fun a => f (- a)) 0 x) in K || idtac.
        assert (J := is_RInt_comp_opp (V := R_NormedModule) (fun a => f (- a)) x 0 (opp (D (- x)))). rewrite Ropp_0 in J.
        specialize (J (is_RInt_swap (V := R_NormedModule) _ _ _ _ K)). apply (is_RInt_opp (V := R_NormedModule)) in J. rewrite opp_opp in J.
        eapply is_RInt_ext; [|exact J]. intros z _. cbv beta. rewrite opp_opp. rewrite Ropp_involutive. reflexivity. }
      rewrite Rplus_comm. apply (is_RInt_Chasles (V := R_NormedModule) f x 0 y); [exact I1|]. apply H1. lra.
    + apply Heps. unfold ball; cbn; unfold AbsRing_ball, abs, minus, plus, opp; cbn.
      specialize (HM y ltac:(lra) ltac:(lra)). specialize (HN (- x) ltac:(lra) ltac:(lra)).
      replace (B y + D (- x) + - (u + v)) with ((B y - u) + (D (- x) - v)) by ring. eapply Rle_lt_trans; [apply Rabs_triang|]. lra.
Qed.
(** parts of a half line *)
Lemma half_upto f c v (g : R -> R) : 0 <= c -> is_RInt f 0 c v -> (forall y, 0 <= y -> ex_RInt f 0 y) -> (forall a, 0 < a < c -> g a = f a) -> (forall a, c < a -> g a = 0) -> half g v.
Proof.
  intros Hc I X E1 E2. exists (fun y => RInt f 0 (Rmin y c)). split.
  - intros y Hy. destruct (Rle_dec y c) as [i|i].
    + rewrite Rmin_left by exact i. apply (is_RInt_ext f); [|apply (RInt_correct (V := R_CompleteNormedModule)), X; exact Hy].
      intros x Hx. rewrite Rmin_left, Rmax_right in Hx by exact Hy. symmetry. apply E1. lra.
    + rewrite Rmin_right by lra. replace (RInt f 0 c) with (plus (RInt f 0 c) 0) by (unfold plus; cbn; ring).
      apply (is_RInt_Chasles (V := R_NormedModule) g 0 c y).
      * apply (is_RInt_ext f); [|apply (RInt_correct (V := R_CompleteNormedModule)), X; exact Hc]. intros x Hx. rewrite Rmin_left, Rmax_right in Hx by lra. symmetry. apply E1. lra.
      * apply (is_RInt_ext (fun _ => 0)).
        { intros x Hx. rewrite Rmin_left in Hx by lra. symmetry. apply E2. lra. }
        { evar_last. apply (is_RInt_const (V := R_NormedModule) c y 0). unfold scal; cbn; unfold mult; cbn. ring. }
  - intros eps He. exists c. intros y Hy _. rewrite Rmin_right by exact Hy. rewrite (is_RInt_unique _ _ _ _ I), Rminus_diag_eq, Rabs_R0 by reflexivity. exact He.
Qed.
