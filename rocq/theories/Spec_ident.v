(** * Specification vocabulary: what observations determine *)
From Coq Require Import Reals List ZArith.
From Verif Require Import Num CoreOps Inst M_units M_kepler Spec_orbit Spec_params Spec_sym.
Open Scope R_scope.

(** the period, the shape and orientation of the orbit within its plane, and the
    phase agree; the argument of periastron of a circular orbit does not matter *)
Definition same_timing (o o' : orbit R) : Prop :=
  o_period o = o_period o' /\ ecc_of o = ecc_of o' /\ ecc_of o * cosw_of o = ecc_of o' * cosw_of o' /\ ecc_of o * sinw_of o = ecc_of o' * sinw_of o' /\
  exists z : Z, o_t0 o = o_t0 o' + IZR z * o_period o.
(** t0 means the same in both: with omega = -90 degrees exactly it is the time of
    the occultation instead of the transit (C06) *)
Definition same_t0 (o o' : orbit R) : Prop := sinw_of o = -1 <-> sinw_of o' = -1.
(** the semi-amplitude that follows from the masses, in R_sun / day *)
Definition amplitude (o : orbit R) : R :=
  2 * PI / o_period o * (o_a o * o_m_planet o / o_m_total o) * sin (o_incl o) / sqrt (1 - ecc_of o * ecc_of o).
(** reflection along the line of sight *)
Definition flip_z (v : R * R * R) : R * R * R := (vx v, vy v, - vz v).
(** the same system with the argument of periastron and the longitude of the node
    both turned by 180 degrees *)
Definition twin (x : kargs R) : kargs R :=
  {| ka_period := ka_period x; ka_a := ka_a x; ka_t0 := ka_t0 x; ka_tper := ka_tper x;
     ka_incl := ka_incl x; ka_b := ka_b x; ka_duration := ka_duration x;
     ka_ecc := ka_ecc x; ka_omega := option_map (fun w => w + PI) (ka_omega x); ka_sin_omega := option_map Ropp (ka_sin_omega x);
     ka_cos_omega := option_map Ropp (ka_cos_omega x); ka_Omega := Some (node_angle x + PI); ka_m_planet := ka_m_planet x;
     ka_m_star := ka_m_star x; ka_r_star := ka_r_star x; ka_rho_star := ka_rho_star x;
     ka_ror := ka_ror x; ka_m_planet_units := ka_m_planet_units x;
     ka_rho_star_units := ka_rho_star_units x |}.
