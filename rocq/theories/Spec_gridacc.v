(** * Specification vocabulary for the accuracy of interpolation on a grid *)
From Coq Require Import Reals List Arith.
From Coquelicot Require Import Coquelicot.
From Verif Require Import Num Spec_grid.
Import ListNotations.
Open Scope R_scope.

(** neighbouring grid points are at most h apart *)
Definition spaced (h : R) (g : list R) : Prop := forall i, (S i < length g)%nat -> nth (S i) g 0 - nth i g 0 <= h.
(** along axis number n the function changes at most by Ls[n] per unit *)
Definition steady_along (gs : list (list R)) (F : list R -> R) (Ls : list R) : Prop :=
  forall l1 l2 a b, within gs (l1 ++ a :: l2) -> within gs (l1 ++ b :: l2) ->
    Rabs (F (l1 ++ a :: l2) - F (l1 ++ b :: l2)) <= nth (length l1) Ls 0 * Rabs (a - b).
(** along axis number n the second derivative is at most Ms[n] *)
Definition smooth_along (gs : list (list R)) (F : list R -> R) (Ms : list R) : Prop :=
  forall l1 l2, exists f1 f2 : R -> R, forall s, within gs (l1 ++ s :: l2) ->
    is_derive (fun s => F (l1 ++ s :: l2)) s (f1 s) /\ is_derive f1 s (f2 s) /\ Rabs (f2 s) <= nth (length l1) Ms 0.
Fixpoint sum_over (f : R -> R -> R) (l m : list R) : R :=
  match l, m with a :: l, b :: m => f a b + sum_over f l m | _, _ => 0 end.
