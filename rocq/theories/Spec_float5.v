(** * Specification vocabulary for rounding errors in light curves *)
From Coq Require Import Reals List Bool Arith ZArith.
From Verif Require Import Num CoreOps Inst CoreFlux M_units M_kepler M_tensor M_simple M_limbdark Spec_orbit Spec_array Spec_simple Spec_light Spec_lip Spec_float Spec_float2 Spec_float3.
Import ListNotations.
Open Scope R_scope.

(** the compiled operation quad_solution_vector is off by at most eps *)
Definition solves (eps : R) (F : FluxOp) : Prop :=
  0 <= eps /\ forall g, In g [basis0; basis1; basis2] -> forall b r, exists s, F g (Fin b) (Fin r) = Fin s /\ Rabs (s - visible_flux g (Rabs b) (Rabs r)) <= eps.
(** LimbDarkLightCurve and its methods as the machine computes them *)
Definition computed_law (rd : rounder) (u1 u2 : R) : limbdark := @ld_init (rounded_fl rd) (Fin u1) (Fin u2).
Definition computed_flux (rd : rounder) (F : FluxOp) (u1 u2 : R) := @compute_light_curve (rounded_fl rd) (rounded_tens rd) F (computed_law rd u1 u2).
Definition computed_curve (rd : rounder) (F : FluxOp) (u1 u2 : R) := @get_light_curve (rounded_fl rd) (rounded_tens rd) F (computed_law rd u1 u2).
(** SimpleTransitOrbit as the machine computes it *)
Definition computed_simple (rd : rounder) (x : sargs tens) : orbit_api := @simple_api (rounded_tens rd) (@simple_init tens btens (rounded_tens rd) x).

(** the error of one flux: of the arithmetic, of the solution vector *)
Definition flux_error (u eps : R) : R := 300 * u + 3 * eps.
(** the error caused by the distance of a disk of radius r (in stellar radii):
    its rounding, and an error d of the position *)
Definition distance_error (u r d : R) : R := 8 * (r * (35 * u * (1 + r) + 4 * d)).
(** the error of the distance that SimpleTransitOrbit computes at time t, when
    the time is itself off by d; the speed is magnified by grazing transits *)
Definition place_error (u : R) (x : sargs R) (t d : R) : R :=
  chord_speed x * (3 * time_error u x t + u * (8 * grazing (1 + dflt 0 (sa_ror x)) (dflt 0 (sa_b x)) * sa_period x + 2 * sa_duration x) + 4 * d)
  + 4 * u * Rabs (dflt 0 (sa_b x) * dflt 1 (sa_r_star x)).
(** the weighted mean of K fluxes that are off by E each *)
Definition mean_error (u : R) (K : nat) (E : R) : R := (1 + u) ^ (K + 2) * (1 + E) - 1.
(** a transit that is not too grazing for the precision *)
Definition graze_ok (u : R) (x : sargs R) : Prop :=
  simple_ok x /\ 0 <= dflt 0 (sa_ror x) /\ Rabs (dflt 0 (sa_b x)) < 1 + dflt 0 (sa_ror x) /\ u * grazing (1 + dflt 0 (sa_ror x)) (dflt 0 (sa_b x)) <= 1 / 200.
(** a disk of radius r that transits and does not graze too closely *)
Definition reach_ok (u : R) (x : sargs R) (r : R) : Prop :=
  let rs := dflt 1 (sa_r_star x) in let b := dflt 0 (sa_b x) in
  Rabs (b * rs) < r + rs /\ u * (grazing (1 + dflt 0 (sa_ror x)) b + grazing (r + rs) (b * rs)) <= 1 / 200.
(** how far a disk of radius r may reach over the star where in_transit leaves
    out the time t with the exposure e *)
Definition mask_error (u : R) (x : sargs R) (r t e : R) : R :=
  let rs := dflt 1 (sa_r_star x) in let b := dflt 0 (sa_b x) in
  chord_speed x * (time_error u x t + 13 * u * (grazing (1 + dflt 0 (sa_ror x)) b + grazing (r + rs) (b * rs)) * (sa_duration x / 2 * (half_reach x r / half_chord x) + e / 2)).
