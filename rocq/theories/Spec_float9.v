(** * Specification vocabulary for rounding errors in the semi-major axis from the duration *)
From Coq Require Import Reals.
From Verif Require Import Num CoreOps Inst M_units M_kepler M_tensor Spec_float Spec_float2 Spec_float3.
Open Scope R_scope.

(** get_aor_from_transit_duration as the machine computes it *)
Definition computed_aor (rd : rounder) := @get_aor tens btens (rounded_tens rd).
(** on a circular orbit with the semi-major axis w (in stellar radii) the planet
    is in front of the star at the angle pi d / p from mid-transit, and its disk
    touches that of the star: a transit of the duration d *)
Definition touches (d p b ror w : R) : Prop :=
  let x := w * sin (PI * d / p) in let y := b * cos (PI * d / p) in 0 < w /\ x * x + y * y = (1 + ror) * (1 + ror).
(** how fast the semi-major axis w changes with the duration, but for the factor
    - cos (pi d / p) *)
Definition steepness (d p b ror w : R) : R :=
  PI * ((1 + ror) * (1 + ror) - b * b) / (w * p * (sin (PI * d / p) * sin (PI * d / p) * sin (PI * d / p))).
