(** * Specification vocabulary for orbits that run backwards *)
From Coq Require Import Reals List Bool Arith ZArith.
From Verif Require Import Num CoreOps Inst M_units M_kepler M_fin M_tensor Spec_orbit Spec_params Spec_array Spec_light.
Import ListNotations.
Open Scope R_scope.

(** the same system with the argument of periastron reflected, omega -> pi -
    omega, and its mid-transit at t0 *)
Definition backwards (x : kargs R) (t0 : R) : kargs R :=
  {| ka_period := ka_period x; ka_a := ka_a x; ka_t0 := Some t0; ka_tper := None;
     ka_incl := ka_incl x; ka_b := ka_b x; ka_duration := ka_duration x;
     ka_ecc := ka_ecc x; ka_omega := option_map (fun w => PI - w) (ka_omega x); ka_sin_omega := ka_sin_omega x;
     ka_cos_omega := option_map Ropp (ka_cos_omega x); ka_Omega := ka_Omega x; ka_m_planet := ka_m_planet x;
     ka_m_star := ka_m_star x; ka_r_star := ka_r_star x; ka_rho_star := ka_rho_star x;
     ka_ror := ka_ror x; ka_m_planet_units := ka_m_planet_units x;
     ka_rho_star_units := ka_rho_star_units x |}.
(** the opposite vector *)
Definition opposite (v : R * R * R) : R * R * R := (- vx v, - vy v, - vz v).
(** exposures are integrated by a rule that is symmetric about their middle:
    with an order other than 0 and fewer than two points the library only looks
    at the beginning of the exposure *)
Definition even_rule (texp : option tens) (oversample order : Z) : Prop :=
  texp = None \/ order = 0%Z \/ (2 <= oversample)%Z.
