(** * Specification vocabulary for calls with keyword arguments *)
From Coq Require Import Reals List Bool String.
From Verif Require Import Num M_units M_kepler M_kwargs.
Import ListNotations.

Section G.
Context {T B : Type} {N : Num T B}.
Variable l : list (string * kval T).
Definition omitted (n : string) : Prop := ~ In n (map fst l).
(** keyword n has the value v, by default None *)
Definition given_qty (n : string) (v : option (qty T)) : Prop :=
  match v with Some q => In (n, KNum q) l | None => omitted n \/ In (n, KNone) l end.
Definition given_num (n : string) (v : option T) : Prop :=
  match v with Some a => exists q, In (n, KNum q) l /\ qv q = a | None => omitted n \/ In (n, KNone) l end.
(** by default zero *)
Definition given_mass (n : string) (v : option (qty T)) : Prop :=
  match v with Some q => In (n, KNum q) l \/ omitted n /\ q = plain (nlit 0) | None => In (n, KNone) l end.
Definition given_unit (n : string) (v : option unit_t) : Prop :=
  match v with Some u => In (n, KUnit u) l | None => omitted n end.
(** the keywords of l, without repetitions, give the parameters x *)
Record call_gives (x : kargs T) : Prop := {
  gi_once : NoDup (map fst l);
  gi_period : given_qty "period" (ka_period x); gi_a : given_qty "a" (ka_a x);
  gi_t0 : given_num "t0" (ka_t0 x); gi_tper : given_num "t_periastron" (ka_tper x);
  gi_incl : given_num "incl" (ka_incl x); gi_b : given_num "b" (ka_b x); gi_duration : given_qty "duration" (ka_duration x);
  gi_ecc : given_num "ecc" (ka_ecc x); gi_omega : given_num "omega" (ka_omega x);
  gi_sin_omega : given_num "sin_omega" (ka_sin_omega x); gi_cos_omega : given_num "cos_omega" (ka_cos_omega x);
  gi_Omega : given_num "Omega" (ka_Omega x);
  gi_m_planet : given_mass "m_planet" (ka_m_planet x); gi_m_star : given_qty "m_star" (ka_m_star x);
  gi_r_star : given_qty "r_star" (ka_r_star x); gi_rho_star : given_qty "rho_star" (ka_rho_star x); gi_ror : given_num "ror" (ka_ror x);
  gi_m_planet_units : given_unit "m_planet_units" (ka_m_planet_units x); gi_rho_star_units : given_unit "rho_star_units" (ka_rho_star_units x)
}.
End G.
