(** * Specification vocabulary: what a transit light curve determines *)
From Coq Require Import Reals List Bool Arith ZArith.
From Verif Require Import Num CoreOps Inst M_units M_kepler M_fin M_tensor M_limbdark Spec_orbit Spec_params Spec_array Spec_light.
Open Scope R_scope.

(** get_light_curve of a system of n planets with radii r, asked for the time t
    alone, answers the value v for planet j *)
Definition light_at (u1 u2 : R) (A : orbit_api) (n : nat) (r : tens) (use : option bool) (j : nat) (t v : R) : Prop :=
  exists X f, get_light_curve (ld_init (Fin u1) (Fin u2)) (Some A) (Some r) (Some (vector 1 (fun _ => t))) None 7 0 use false = Ok X /\
    light_table n 1 X f /\ f O j = v.
(** the search for the times in transit is off, or all planets have circular
    orbits outside the star *)
Definition plain_mask (use : option bool) (n : nat) (xs : nat -> kargs R) (os : nat -> orbit R) (rs : nat -> R) : Prop :=
  use = Some false \/ forall j, (j < n)%nat -> 0 <= rs j /\ ka_ecc (xs j) = None /\ o_r_star (os j) + rs j < o_a (os j) /\ 0 <= o_sin_incl (os j).
(** every part of the star shines *)
Definition shining (u1 u2 : R) : Prop := forall mu, 0 < mu <= 1 -> 0 < intensity u1 u2 mu.
(** a planet of radius r on a circular orbit outside the star transits at t0 *)
Record transiting (o : orbit R) (r : R) : Prop := {
  tr_circular : o_ecc o = None;
  tr_front : 0 < o_sin_incl o;
  tr_radius : 0 < r;
  tr_crosses : Rabs (o_b o) * o_r_star o < o_r_star o + r;
  tr_outside : o_r_star o + r < o_a o
}.
(** the whole disk of the planet is in front of the star at t0 *)
Definition full_transit (o : orbit R) (r : R) : Prop := transiting o r /\ Rabs (o_b o) * o_r_star o + r <= o_r_star o.
(** what the times of the transits tell *)
Definition same_times (o o' : orbit R) : Prop := o_period o' = o_period o /\ exists z : Z, o_t0 o' = o_t0 o + IZR z * o_period o.
(** sin^2 of pi times the time from the first to the last contact over the period *)
Definition contact (o : orbit R) (r : R) : R :=
  ((o_r_star o + r) * (o_r_star o + r) - o_b o * o_b o * (o_r_star o * o_r_star o)) / (o_a o * o_a o - o_b o * o_b o * (o_r_star o * o_r_star o)).
