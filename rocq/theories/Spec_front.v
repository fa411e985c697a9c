(** * Specification vocabulary for the passages of a planet in front of its star *)
From Coq Require Import Reals ZArith.
From Verif Require Import Num Inst M_units M_kepler Spec_orbit.
Open Scope R_scope.

(** how far the line of nodes passes from the centre of the orbit, when the
    ellipse is stretched to a circle of radius one; positive if the periastron is
    on the near side *)
Definition slant (o : orbit R) : R :=
  ecc_of o * sinw_of o / sqrt (1 - ecc_of o * ecc_of o * (cosw_of o * cosw_of o)).
(** the share of the period that the planet spends in front of the plane of the
    sky: the area of a segment of the circle over its whole area *)
Definition front_share (o : orbit R) : R := (acos (slant o) - slant o * sqrt (1 - slant o * slant o)) / PI.
(** the position on the sky along the line of nodes *)
Definition along (angle : R) (v : R * R * R) : R := vx v * cos angle + vy v * sin angle.
