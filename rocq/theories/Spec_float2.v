(** * Specification vocabulary for rounding errors in SimpleTransitOrbit *)
From Coq Require Import Reals ZArith.
From Verif Require Import Num CoreOps Inst M_units M_kepler M_simple Spec_simple Spec_float.
Open Scope R_scope.

(** machine numbers with rounding errors: NaN and the infinities as in [NumF],
    finite results rounded *)
Definition value (a : fl) : R := match a with Fin x => x | _ => 0 end.
Definition rnd (rd : rounder) (op : operation) (a b r : fl) : fl := match r with Fin z => Fin (rd op (value a) (value b) z) | _ => r end.
Definition rounded_fl (rd : rounder) : Num fl bool := {|
  nlit := fun r => Fin (rd OLit r 0 r);
  nadd := fun x y => rnd rd OAdd x y (fadd x y); nsub := fun x y => rnd rd OSub x y (fsub x y);
  nmul := fun x y => rnd rd OMul x y (fmul x y); ndiv := fun x y => rnd rd ODiv x y (fdiv x y); nneg := fneg;
  nsqrt := fun x => rnd rd OSqrt x (Fin 0) (fsqrt x); nsin := fun x => rnd rd OSin x (Fin 0) (ftrig sin x); ncos := fun x => rnd rd OCos x (Fin 0) (ftrig cos x);
  nasin := fun x => rnd rd OAsin x (Fin 0) (farc asin x); nacos := fun x => rnd rd OAcos x (Fin 0) (farc acos x);
  natan2 := fun y x => rnd rd OAtan2 y x (fatan2 y x); nexp := fun x => rnd rd OExp x (Fin 0) (fexp x); nlog := fun x => rnd rd OLog x (Fin 0) (flog x);
  nabs := fabs; nfloor := ffloor; nmod := fun x y => rnd rd OMod x y (fmod x y); npowr := fun x y => rnd rd OPow x y (fpowr x y);
  nkepler_sin := fun M e => rnd rd OKeplerSin M e (fkep kepler_sinf M e); nkepler_cos := fun M e => rnd rd OKeplerCos M e (fkep kepler_cosf M e);
  nzl := fun _ => Fin 0; npadr := fun x => x; nsqz := fun x => x;
  nlt := flt; nle := fle; nband := andb;
  nsw := fun c a b => if c then a else b |}.

(** the orbit, the position of the planet and the mask of in_transit as the
    machine computes them *)
Definition computed_orbit (rd : rounder) (x : sargs R) : simple R := @simple_init R bool (rounded rd) x.
Definition computed_position (rd : rounder) (x : sargs R) (t : R) : R * R * R :=
  match @simple_relative_position R bool (rounded rd) (computed_orbit rd x) t false with Ok p => p | Err _ => (0, 0, 0) end.
Definition computed_mask (rd : rounder) (x : sargs R) (t : R) (r texp : option R) : bool := @simple_mask R bool (rounded rd) (computed_orbit rd x) t r texp.

(** how far the time since mid-transit can be off *)
Definition time_error (u : R) (x : sargs R) (t : R) : R :=
  u * (Rabs (t - dflt 0 (sa_t0 x)) + 2 * Rabs (dflt 0 (sa_t0 x)) + 10 * sa_period x).
(** half of the chord along which the planet's centre moves between first and
    last contact, and half of the chord between the points where a disk of
    radius r touches the star's *)
Definition half_chord (x : sargs R) : R :=
  dflt 1 (sa_r_star x) * sqrt ((1 + dflt 0 (sa_ror x)) * (1 + dflt 0 (sa_ror x)) - dflt 0 (sa_b x) * dflt 0 (sa_b x)).
Definition half_reach (x : sargs R) (r : R) : R :=
  let rs := dflt 1 (sa_r_star x) in sqrt ((r + rs) * (r + rs) - dflt 0 (sa_b x) * rs * (dflt 0 (sa_b x) * rs)).
(** how much a grazing transit magnifies errors of the impact parameter; 1 for a
    central one *)
Definition grazing (l b : R) : R := l * l / (l * l - b * b).
(** the decision m agrees with "some mid-transit is nearer than tol" up to the
    error E *)
Definition decides (x : sargs R) (t tol E : R) (m : bool) : Prop :=
  ((exists q : Z, Rabs (t - smid x q) < tol - E) -> m = true) /\ (m = true -> exists q : Z, Rabs (t - smid x q) < tol + E).
