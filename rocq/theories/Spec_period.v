(** * Specification vocabulary for repeating light curves *)
From Coq Require Import Reals Arith ZArith.
Open Scope R_scope.

(** every time ts' m differs from ts m by a whole number of periods, for each of
    the n planets; the number may differ from time to time and planet to planet *)
Definition periods_apart (n N : nat) (period : nat -> R) (ts ts' : nat -> R) : Prop :=
  forall m j, (m < N)%nat -> (j < n)%nat -> exists z : Z, ts' m = ts m + IZR z * period j.
