(** * Specification vocabulary: what the light curve of a SimpleTransitOrbit determines *)
From Coq Require Import Reals List Bool Arith ZArith.
From Verif Require Import Num CoreOps Inst M_simple Spec_simple Spec_light Spec_depth.
Open Scope R_scope.

(** a planet of radius r, the radius given to get_light_curve, crosses the star *)
Record crossing (x : sargs R) (r : R) : Prop := {
  cr_ok : simple_ok x;
  cr_radius : 0 < r;
  cr_short : sa_duration x < sa_period x;
  cr_speed : Rabs (dflt 0 (sa_b x)) < 1 + dflt 0 (sa_ror x);
  cr_crosses : Rabs (dflt 0 (sa_b x)) * dflt 1 (sa_r_star x) < dflt 1 (sa_r_star x) + r }.
(** the radius given to get_light_curve is the one given to SimpleTransitOrbit *)
Definition matched (x : sargs R) (r : R) : Prop := r = dflt 0 (sa_ror x) * dflt 1 (sa_r_star x).
(** the time for which the star is dimmed, over the duration given to SimpleTransitOrbit *)
Definition dimmed_part (x : sargs R) (r : R) : R :=
  let q := r / dflt 1 (sa_r_star x) in let b := dflt 0 (sa_b x) in let ror := dflt 0 (sa_ror x) in
  Rmin 1 (sqrt (((1 + q) * (1 + q) - b * b) / ((1 + ror) * (1 + ror) - b * b))).
(** the search for the times in transit is off, or finds the transits of all planets *)
Definition simple_search (use : option bool) (n : nat) (xs : nat -> sargs R) (rs : nat -> R) : Prop :=
  use = Some false \/ forall j, (j < n)%nat -> 0 <= rs j /\ Rabs (dflt 0 (sa_b (xs j))) < 1 + dflt 0 (sa_ror (xs j)) /\
    Rabs (dflt 0 (sa_b (xs j))) * dflt 1 (sa_r_star (xs j)) <> dflt 1 (sa_r_star (xs j)) + rs j.
(** the star is nowhere brighter further from its centre, and shines up to its edge *)
Definition lit (u1 u2 : R) : Prop := darkening u1 u2 /\ 0 < intensity u1 u2 0.
(** two transits of impact parameters b and b', stars of radii Rs and Rs', planets
    of radii r and r': the ratio of the radii is known; or the star is uniform and
    both planets pass in front of it completely, or one does without touching the
    edge *)
Definition ratio_shown (u1 u2 b Rs r b' Rs' r' : R) : Prop :=
  r' / Rs' = r / Rs \/
  (u1 = 0 /\ u2 = 0 /\ ((Rabs b * Rs + r <= Rs /\ Rabs b' * Rs' + r' <= Rs') \/ Rabs b * Rs + r < Rs \/ Rabs b' * Rs' + r' < Rs')).
(** what the times of the transits tell *)
Definition same_simple_times (x x' : sargs R) : Prop :=
  sa_period x' = sa_period x /\ exists z : Z, dflt 0 (sa_t0 x') = dflt 0 (sa_t0 x) + IZR z * sa_period x.
