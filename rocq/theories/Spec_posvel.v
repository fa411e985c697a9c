(** * Specification vocabulary for the combined state of star and planets *)
From Coq Require Import Reals List Arith.
From Verif Require Import Spec_orbit.
Import ListNotations.
Open Scope R_scope.

(** component c of a vector *)
Definition comp (c : nat) (v : R * R * R) : R := match c with O => vx v | S O => vy v | _ => vz v end.
(** f 0 + ... + f (n-1) *)
Definition total (f : nat -> R) (n : nat) : R := fold_right Rplus 0 (map f (seq 0 n)).
(** the index (row, planet, component), last axis first *)
Definition at_rpc (r j c : nat) : nat -> nat := fun d => match d with O => c | S O => j | S (S O) => r | _ => O end.
(** the factor from solar radii to arcseconds for an optional parallax, given
    the number of astronomical units per solar radius *)
Definition angular (au : R) (par : option R) : R := match par with None => 1 | Some p => p * au end.
