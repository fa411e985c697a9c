(** * Specification vocabulary for autocorr_estimator *)
From Coq Require Import Reals List Bool Arith ZArith Sorted.
From Verif Require Import Num Inst M_peaks M_acf M_acorr Spec_acf.
Import ListNotations.
Open Scope R_scope.

(** the smallest difference of consecutive times; the first and last time *)
Definition min_spacing (x : list R) (d : R) : Prop :=
  (exists i, (S i < length x)%nat /\ nth (S i) x 0 - nth i x 0 = d) /\
  (forall i, (S i < length x)%nat -> d <= nth (S i) x 0 - nth i x 0).
Definition least (x : list R) (a : R) : Prop := In a x /\ forall b, In b x -> a <= b.
Definition greatest (x : list R) (a : R) : Prop := In a x /\ forall b, In b x -> b <= a.

(** the limits in force *)
Definition lower_limit (x : list R) (min_period : option R) (p : R) : Prop :=
  match min_period with Some q => p = q | None => min_spacing x p end.
Definition upper_limit (x : list R) (max_period : option R) (p : R) : Prop :=
  match max_period with Some q => p = q | None => exists a b, least x a /\ greatest x b /\ p = b - a end.

(** a strict local maximum of the curve at a lag of at least the lower limit *)
Definition eligible (tau : list R) (acor : list fl) (pmin : R) (i : nat) : Prop :=
  (1 <= i)%nat /\ (i + 1 < length acor)%nat /\
  flt (nth (i - 1) acor NaN) (nth i acor NaN) = true /\ flt (nth (i + 1) acor NaN) (nth i acor NaN) = true /\
  pmin <= nth i tau 0.
Definition first_of (E : nat -> Prop) (i : nat) : Prop := E i /\ forall j, (j < i)%nat -> ~ E j.
Definition next_of (E : nat -> Prop) (i j : nat) : Prop := E j /\ (i < j)%nat /\ forall k, (i < k < j)%nat -> ~ E k.
Definition higher (acor : list fl) (j i : nat) : Prop := flt (nth i acor NaN) (nth j acor NaN) = true.

(** the selected lag: the first eligible maximum, or the second one if that is higher *)
Definition selected (tau : list R) (acor : list fl) (pmin pmax : R) (i : nat) : Prop :=
  let E := eligible tau acor pmin in
  nth i tau 0 <= pmax /\
  ((first_of E i /\ forall j, next_of E i j -> ~ higher acor j i) \/
   (exists f, first_of E f /\ nth f tau 0 <= pmax /\ next_of E f i /\ higher acor i f)).

(** scipy's filter keeps the length *)
Definition keeps_length (g : list fl -> R -> list fl) : Prop := forall l s, length (g l s) = length l.
(** the piecewise linear curve through the samples *)
Definition on_segment (x y : list R) (q v : R) : Prop :=
  exists i, (S i < length x)%nat /\ nth i x 0 <= q <= nth (S i) x 0 /\
    v = nth i y 0 + (nth (S i) y 0 - nth i y 0) * ((q - nth i x 0) / (nth (S i) x 0 - nth i x 0)).
