(** * Specification vocabulary for light-travel time *)
From Coq Require Import Reals.
From Verif Require Import Num Inst M_units M_kepler Spec_orbit.
Open Scope R_scope.

(** the largest speed on the relative orbit, reached at periastron *)
Definition peak_speed (o : orbit R) : R :=
  2 * PI / o_period o * o_a o * sqrt ((1 + ecc_of o) / (1 - ecc_of o)).
(** the two bodies move at no more than two fifths of the speed of light *)
Definition slow (k : consts) (o : orbit R) : Prop := 5 / 2 * peak_speed o <= c_light k.
