(** * Specification vocabulary for the autocorrelation function *)
From Coq Require Import Reals List Bool Arith ZArith.
From Verif Require Import Num M_acf.
Import ListNotations.
Open Scope R_scope.

Fixpoint sum_below (n : nat) (f : nat -> R) : R := match n with O => 0 | S n => sum_below n f + f n end.
Definition mean_of (xs : list R) : R := sum_below (length xs) (fun i => nth i xs 0) / INR (length xs).
(** the linear autocovariance at lag k: products of entries k apart, no wrap-around *)
Definition acov (xs : list R) (k : nat) : R :=
  sum_below (length xs - k) (fun i => (nth i xs 0 - mean_of xs) * (nth (i + k) xs 0 - mean_of xs)).
Definition constant (xs : list R) : Prop := exists c, forall x, In x xs -> x = c.
Definition series (xs : list R) : nda := {| nd_shape := [length xs]; nd_data := xs |}.
Definition well_formed (a : nda) : Prop := length (nd_data a) = fold_right Nat.mul 1%nat (nd_shape a).
