(** * Example calls for the theorems about warnings *)
From Coq Require Import Reals List Bool Arith String.
From Verif Require Import Num CoreOps Inst M_units M_kepler M_tensor Ex_orbit.
Import ListNotations.
Open Scope R_scope.

(** a duration without a radius ratio, and the deprecated unit keyword *)
Definition wx : kargs tens :=
  {| ka_period := Some (plain (alit (Fin 10))); ka_a := None; ka_t0 := None; ka_tper := None; ka_incl := None;
     ka_b := Some (alit (Fin 0)); ka_duration := Some (plain (alit (Fin (1 / 10)))); ka_ecc := None; ka_omega := None;
     ka_sin_omega := None; ka_cos_omega := None; ka_Omega := None; ka_m_planet := Some (plain (alit (Fin 1)));
     ka_m_star := None; ka_r_star := None; ka_rho_star := None; ka_ror := None;
     ka_m_planet_units := Some (u_M_sun ek); ka_rho_star_units := None |}.
(** only the deprecated unit keyword *)
Definition wy : kargs tens :=
  {| ka_period := Some (plain (alit (Fin 10))); ka_a := None; ka_t0 := None; ka_tper := None; ka_incl := None;
     ka_b := Some (alit (Fin 0)); ka_duration := None; ka_ecc := None; ka_omega := None;
     ka_sin_omega := None; ka_cos_omega := None; ka_Omega := None; ka_m_planet := Some (plain (alit (Fin 1)));
     ka_m_star := None; ka_r_star := None; ka_rho_star := None; ka_ror := None;
     ka_m_planet_units := Some (u_M_sun ek); ka_rho_star_units := None |}.
