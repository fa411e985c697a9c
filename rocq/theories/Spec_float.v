(** * Specification vocabulary for arithmetic with rounding errors *)
From Coq Require Import Reals.
From Verif Require Import Num CoreOps Inst M_units M_kepler.
Open Scope R_scope.

(** the operations whose result is rounded; literals (np.pi, 1/3, the constants)
    are rounded too *)
Inductive operation :=
  OLit | OAdd | OSub | OMul | ODiv | OSqrt | OSin | OCos | OAsin | OAcos | OAtan2 | OExp | OLog | OMod | OPow | OKeplerSin | OKeplerCos.
(** [rd op x y r]: what the machine returns for the operation [op] with the
    operands [x] and [y] (the second is 0 for functions of one argument), whose
    exact result is [r] *)
Definition rounder := operation -> R -> R -> R -> R.
(** the arithmetic of the model with every result rounded; neither overflow nor
    underflow *)
Definition rounded (rd : rounder) : Num R bool := {|
  nlit := fun r => rd OLit r 0 r;
  nadd := fun x y => rd OAdd x y (x + y); nsub := fun x y => rd OSub x y (x - y);
  nmul := fun x y => rd OMul x y (x * y); ndiv := fun x y => rd ODiv x y (x / y); nneg := Ropp;
  nsqrt := fun x => rd OSqrt x 0 (sqrt x); nsin := fun x => rd OSin x 0 (sin x); ncos := fun x => rd OCos x 0 (cos x);
  nasin := fun x => rd OAsin x 0 (asin x); nacos := fun x => rd OAcos x 0 (acos x);
  natan2 := fun y x => rd OAtan2 y x (Ratan2 y x); nexp := fun x => rd OExp x 0 (exp x); nlog := fun x => rd OLog x 0 (ln x);
  nabs := Rabs; nfloor := Rfloor; nmod := fun x y => rd OMod x y (Rmodulo x y); npowr := fun x y => rd OPow x y (Rpowr x y);
  nkepler_sin := fun M e => rd OKeplerSin M e (kepler_sinf M e); nkepler_cos := fun M e => rd OKeplerCos M e (kepler_cosf M e);
  nzl := fun _ => 0; npadr := fun x => x; nsqz := fun x => x;
  nlt := Rltb; nle := Rleb; nband := andb;
  nsw := fun c a b => if c then a else b |}.
(** every operation returns a number within the relative error u of its exact
    result *)
Definition accurate (u : R) (rd : rounder) : Prop :=
  0 <= u <= 1 / 100 /\ forall op x y r, Rabs (rd op x y r - r) <= u * Rabs r.
(** the relative difference of two positive numbers *)
Definition off (x y : R) : R := Rabs (ln (x / y)).

(** an orbit with the attributes of a star and a planet *)
Definition sizes (o : orbit R) : Prop :=
  0 < o_a o /\ 0 < o_period o /\ 0 < o_r_star o /\ 0 < o_m_star o /\ 0 <= o_m_planet o.
(** the attributes of an orbit obey the relations between them up to a few
    rounding errors: Kepler's third law, density, total mass, mean motion, the
    axes of the orbits of the two bodies and of a circular orbit the scale of
    the velocities, the inclination of a transit over the limb and the time of
    periastron *)
Record nearly_consistent (k : consts) (u : R) (o : orbit R) : Prop := {
  nc_third_law : off (4 * (PI * PI) * (o_a o * o_a o * o_a o)) (G_grav k * o_m_total o * (o_period o * o_period o)) <= u * (17 + 4 * Rabs (ln (o_a o)));
  nc_density : off (o_rho_star o * (4 * PI * (o_r_star o * o_r_star o * o_r_star o))) (3 * o_m_star o * gcc_per_sun k) <= u * (14 + 4 * Rabs (ln (o_r_star o)));
  nc_mass : off (o_m_total o) (o_m_star o + o_m_planet o) <= u * 2;
  nc_n : off (o_n o * o_period o) (2 * PI) <= u * 5;
  nc_planet : off (- o_a_planet o * o_m_total o) (o_a o * o_m_star o) <= u * 3;
  nc_star : 0 < o_m_planet o -> off (o_a_star o * o_m_total o) (o_a o * o_m_planet o) <= u * 3;
  nc_massless : o_m_planet o = 0 -> o_a_star o = 0;
  nc_K0 : o_ecc o = None -> off (o_K0 o * o_m_total o) (o_n o * o_a o) <= u * 3;
  nc_limb : o_ecc o = None -> off (o_dcosidb o * o_a o) (o_r_star o) <= u * 4;
  nc_periastron : o_ecc o = None -> Rabs (o_t0 o - o_tper o - o_period o / 4) <= u * (Rabs (o_t0 o) + Rabs (o_tper o) + 3 * o_period o);
  nc_tref : Rabs (o_tref o - (o_tper o - o_t0 o)) <= u * Rabs (o_tper o - o_t0 o) }.

(** the factors of the rotation into the observer's frame are sines and cosines
    with a rounding error *)
Definition turned (u : R) (o : orbit R) : Prop :=
  Rabs (o_cos_incl o) <= 1 + u /\ Rabs (o_sin_incl o) <= 1 + u /\ forall w, o_Omega o = Some w -> Rabs (O_cos w) <= 1 + u /\ Rabs (O_sin w) <= 1 + u.
(** the components of two vectors differ by at most E *)
Definition near3 (p q : R * R * R) (E : R) : Prop :=
  Rabs (fst (fst p) - fst (fst q)) <= E /\ Rabs (snd (fst p) - snd (fst q)) <= E /\ Rabs (snd p - snd q) <= E.
(** the angle swept in the time since the reference transit, and from there to
    periastron *)
Definition swing (o : orbit R) (t : R) : R := o_n o * (Rabs (t - o_t0 o) + Rabs (o_tref o)).

(** adding zero changes nothing *)
Definition exact_zero (rd : rounder) : Prop := forall x, rd OAdd x 0 x = x.
(** how steep Kepler's equation can be *)
Definition slack (o : orbit R) : R := / (1 - match o_ecc o with None => 0 | Some d => e_ecc d end).
(** the eccentricity and the direction of periastron are in range *)
Definition oriented (u : R) (o : orbit R) : Prop :=
  forall d, o_ecc o = Some d -> 0 <= e_ecc d < 1 /\ Rabs (e_cosw d) <= 1 + u /\ Rabs (e_sinw d) <= 1 + u.
