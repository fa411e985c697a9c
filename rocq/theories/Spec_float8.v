(** * Specification vocabulary: signs of the rounded attributes *)
From Coq Require Import Reals.
From Verif Require Import Num M_units M_kepler.
Open Scope R_scope.

(** masses, density, mean motion and scales are positive, and the bodies are on
    opposite sides of the centre of mass *)
Definition directed (o : orbit R) : Prop :=
  0 < o_m_total o /\ 0 < o_n o /\ 0 < o_rho_star o /\ o_a_planet o < 0 /\ (0 < o_m_planet o -> 0 < o_a_star o) /\
  (o_ecc o = None -> 0 < o_K0 o /\ 0 < o_dcosidb o).
