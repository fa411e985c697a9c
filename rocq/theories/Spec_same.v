(** * Specification vocabulary: a circular KeplerianOrbit and a
    SimpleTransitOrbit built from the same arguments *)
From Coq Require Import Reals List Bool Arith ZArith.
From Verif Require Import Num CoreOps Inst M_units M_kepler M_simple Spec_orbit.
Open Scope R_scope.

(** x describes a circular orbit by its duration, with the arguments that s
    holds; the transits last less than half the period and are not grazing from
    outside *)
Record same_transit (x : kargs R) (s : sargs R) : Prop := {
  st_ecc : ka_ecc x = None;
  st_duration : ka_duration x = Some (plain (sa_duration s));
  st_period : ka_period x = Some (plain (sa_period s));
  st_b : ka_b x = Some (dflt 0 (sa_b s));
  st_r_star : ka_r_star x = option_map plain (sa_r_star s);
  st_ror : ka_ror x = sa_ror s;
  st_t0 : ka_t0 x = sa_t0 s;
  st_tper : ka_tper x = None;
  st_range : 0 < sa_duration s < sa_period s / 2;
  st_chord : 0 <= dflt 0 (sa_b s) < 1 + dflt 0 (sa_ror s) }.
(** half of the chord that the planet's centre describes while the disks overlap *)
Definition half_chord (s : sargs R) : R :=
  dflt 1 (sa_r_star s) * sqrt ((1 + dflt 0 (sa_ror s)) * (1 + dflt 0 (sa_ror s)) - dflt 0 (sa_b s) * dflt 0 (sa_b s)).
(** how much a circular orbit bends during the transit: of the order of
    (pi duration / period)^2 / 6 *)
Definition bend (s : sargs R) : R :=
  let h := PI * sa_duration s / sa_period s in h * h / 6 / (1 - h * h / 6).
