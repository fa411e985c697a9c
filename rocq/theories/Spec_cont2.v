(** * Specification vocabulary: parameters of a SimpleTransitOrbit that approach a limit *)
From Coq Require Import Reals ZArith.
From Verif Require Import Num CoreOps Inst M_simple Spec_simple Spec_cont.
Open Scope R_scope.

(** arguments of the constructor (simple.py:24) that approach the arguments x *)
Record sargs_tend (xs : nat -> sargs R) (x : sargs R) : Prop := {
  st_period : Un_cv (fun n => sa_period (xs n)) (sa_period x);
  st_duration : Un_cv (fun n => sa_duration (xs n)) (sa_duration x);
  st_t0 : given_tends Un_cv (fun n => sa_t0 (xs n)) (sa_t0 x);
  st_b : given_tends Un_cv (fun n => sa_b (xs n)) (sa_b x);
  st_r_star : given_tends Un_cv (fun n => sa_r_star (xs n)) (sa_r_star x);
  st_ror : given_tends Un_cv (fun n => sa_ror (xs n)) (sa_ror x)
}.

(** t is exactly half way between two mid-transits *)
Definition half_way (x : sargs R) (t : R) : Prop := exists q : Z, t = smid x q + sa_period x / 2.
(** t is exactly half a duration away from a mid-transit *)
Definition at_contact (x : sargs R) (t : R) : Prop := exists q : Z, Rabs (t - smid x q) = sa_duration x / 2.

(** lists of a fixed length that approach a list entry by entry *)
Definition lists_tend (ls : nat -> list R) (l : list R) : Prop :=
  (forall n, List.length (ls n) = List.length l) /\ forall i, (i < List.length l)%nat -> Un_cv (fun n => List.nth i (ls n) 0) (List.nth i l 0).
