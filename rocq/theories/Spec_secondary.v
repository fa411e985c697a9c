(** * Specification vocabulary for secondary eclipses *)
From Coq Require Import Reals List Bool Arith ZArith.
From Verif Require Import Num CoreOps Inst M_units M_kepler M_tensor M_limbdark Spec_orbit Spec_array Spec_light.
Import ListNotations.
Open Scope R_scope.

(** the flux of the planet's disk relative to the star's *)
Definition flux_ratio (s r rstar : R) : R := s * ((r / rstar) * (r / rstar)).
(** the total light of two sources with flux ratio f, relative to its maximum,
    when a and b are the relative changes of the sources *)
Definition mixture (f a b : R) : R := (a + f * b) / (1 + f).
(** the star as seen from the planet *)
Definition opposite (P : R * R * R) : R * R * R := (- vx P, - vy P, - vz P).
