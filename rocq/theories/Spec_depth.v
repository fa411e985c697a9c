(** * Specification vocabulary for the depth of transits *)
From Coq Require Import Reals List Bool Arith ZArith.
From Verif Require Import Num CoreOps Inst M_units M_kepler M_fin M_tensor Spec_orbit Spec_params Spec_array Spec_light.
Open Scope R_scope.

(** the star is nowhere brighter further from its centre *)
Definition darkening (u1 u2 : R) : Prop := forall mu mu', 0 <= mu <= mu' -> mu' <= 1 -> intensity u1 u2 mu <= intensity u1 u2 mu'.
(** brightness at distance rho from the centre of the star *)
Definition brightness (u1 u2 rho : R) : R := intensity u1 u2 (sqrt (1 - rho * rho)).
(** the area common to the unit disk and a disk of radius r at distance b: the
    two circular sectors less the quadrilateral counted twice.  acos is 0 from 1
    on and pi up to -1, sqrt is 0 below 0: the formula also covers disjoint and
    nested disks. *)
Definition common_area (b r : R) : R :=
  acos ((1 + b * b - r * r) / (2 * b)) + r * r * acos ((b * b + r * r - 1) / (2 * b * r)) - sqrt (4 * (b * b) - (1 + b * b - r * r) * (1 + b * b - r * r)) / 2.
(** distance of the planet from the centre of the star in the sky *)
Definition apart (P : R * R * R) : R := sqrt (vx P * vx P + vy P * vy P).
(** X and Y are N x n tables of numbers, no entry of Y above that of X *)
Definition deeper (n N : nat) (X Y : res tens) : Prop :=
  exists A B f g, X = Ok A /\ Y = Ok B /\ light_table n N A f /\ light_table n N B g /\
    forall m j, (m < N)%nat -> (j < n)%nat -> g m j <= f m j.
