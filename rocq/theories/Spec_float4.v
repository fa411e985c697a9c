(** * Specification vocabulary for rounding errors in the distributions *)
From Coq Require Import Reals List Bool Arith ZArith String.
From Verif Require Import Num CoreOps Inst M_units M_kepler M_kwargs M_tensor M_limbdark M_dist Spec_array Spec_dist Spec_float Spec_float2 Spec_float3.
Open Scope R_scope.

(** the functions as the machine computes them *)
Definition computed_angle (rd : rounder) (p : bool) := @angle p (rounded_tens rd).
Definition computed_disk (rd : rounder) (p : bool) := @unit_disk p (rounded_tens rd).
Definition computed_quad (rd : rounder) (p : bool) := @quad_limb_dark p (rounded_tens rd).
Definition computed_impact (rd : rounder) (p : bool) := @impact_parameter p (rounded_tens rd).
(** the number one is exact, and rounding does not carry a result past it *)
Definition keeps_one (rd : rounder) : Prop :=
  rd OLit 1 0 1 = 1 /\ forall op x y r, Rabs r <= 1 -> Rabs (rd op x y r) <= 1.
