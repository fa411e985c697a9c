(** * Specification vocabulary for the weight that two sampled variables give *)
From Coq Require Import Reals.
From Coquelicot Require Import Coquelicot.
Open Scope R_scope.

(** [m] is the sum of G (x, y) over the square lo < a, b < hi when the point
    (a, b) has weight W a b and x = X a b, y = Y a b *)
Definition weighs (lo hi : R) (X Y W : R -> R -> R) (G : R -> R -> R) (m : R) : Prop :=
  (forall a, lo < a < hi -> ex_RInt (fun b => G (X a b) (Y a b) * W a b) lo hi) /\
  is_RInt (fun a => RInt (fun b => G (X a b) (Y a b) * W a b) lo hi) lo hi m.
(** one where the condition holds, else zero *)
Definition one_if {P : Prop} (d : {P} + {~ P}) : R := if d then 1 else 0.
