(** * Specification vocabulary for SimpleTransitOrbit *)
From Coq Require Import Reals List Bool Arith ZArith.
From Verif Require Import Num CoreOps Inst M_simple Spec_array.
Import ListNotations.
Open Scope R_scope.

(** sensible parameters: the impact parameter does not exceed 1 + ror *)
Record simple_ok (x : sargs R) : Prop := {
  so_period : 0 < sa_period x;
  so_duration : 0 < sa_duration x;
  so_r_star : 0 < dflt 1 (sa_r_star x);
  so_b : Rabs (dflt 0 (sa_b x)) <= 1 + dflt 0 (sa_ror x) }.

Definition map_sargs {S T} (f : S -> T) (x : sargs S) : sargs T :=
  {| sa_period := f (sa_period x); sa_duration := f (sa_duration x); sa_t0 := option_map f (sa_t0 x);
     sa_b := option_map f (sa_b x); sa_r_star := option_map f (sa_r_star x); sa_ror := option_map f (sa_ror x) |}.

(** x holds the arguments of n planets: scalars or one entry per planet, at
    least one period per planet; planet j has the finite arguments xs j *)
Record simple_system (n : nat) (x : sargs tens) (xs : nat -> sargs R) : Prop := {
  ss_period : per_planet n (sa_period x) /\ one_each n (sa_period x);
  ss_duration : per_planet n (sa_duration x);
  ss_t0 : opt_per_planet n (sa_t0 x); ss_b : opt_per_planet n (sa_b x);
  ss_r_star : opt_per_planet n (sa_r_star x); ss_ror : opt_per_planet n (sa_ror x);
  ss_at : forall j, (j < n)%nat -> map_sargs (fun a : tens => aget a (at_planet j)) x = map_sargs Fin (xs j) }.

(** the planet's position at time t *)
Definition spos (x : sargs R) (t : R) : R * R * R :=
  match simple_relative_position (simple_init x) t false with Ok p => p | Err _ => (0, 0, 0) end.
Definition sx (x : sargs R) t := fst (fst (spos x t)).
Definition sy (x : sargs R) t := snd (fst (spos x t)).
Definition sz (x : sargs R) t := snd (spos x t).
(** projected distance from the centre of the star *)
Definition sdist (x : sargs R) (t : R) : R := sqrt (sx x t * sx x t + sy x t * sy x t).
(** mid-transit number q *)
Definition smid (x : sargs R) (q : Z) : R := dflt 0 (sa_t0 x) + IZR q * sa_period x.
