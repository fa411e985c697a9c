(** * Specification vocabulary for rounding errors in the radius ratio *)
From Coq Require Import Reals.
From Verif Require Import Num CoreOps Inst CoreFlux M_units M_kepler M_tensor M_limbdark Spec_light Spec_float Spec_float2 Spec_float3 Spec_float5.
Open Scope R_scope.

(** get_ror_from_approx_transit_depth as the machine computes it *)
Definition computed_ror (rd : rounder) (u1 u2 : R) := @get_ror_from_approx_transit_depth (rounded_tens rd) (computed_law rd u1 u2).
(** the cosine of the angle at which a planet with impact parameter b is seen on
    the surface of the star; 1 in the centre, 0 at the limb *)
Definition foreshortening (b : R) : R := sqrt (1 - b * b).
(** the impact parameter is not too close to 1 and the star not too dark there
    for the precision *)
Definition off_limb (u u1 u2 b : R) : Prop :=
  let mu := foreshortening b in 0 < intensity u1 u2 mu /\ 4 * u <= mu * mu /\ 160 * u <= mu * intensity u1 u2 mu.
(** the relative error of the radius ratio *)
Definition limb_error (u u1 u2 b : R) : R := 100 * u / (foreshortening b * intensity u1 u2 (foreshortening b)).
