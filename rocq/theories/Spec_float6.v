(** * Specification vocabulary for rounding errors in light curves of a KeplerianOrbit *)
From Coq Require Import Reals List Bool Arith ZArith.
From Verif Require Import Num CoreOps Inst CoreFlux M_units M_kepler M_fin M_tensor M_simple M_limbdark Spec_orbit Spec_array Spec_light Spec_float Spec_float2 Spec_float3 Spec_float5.
Import ListNotations.
Open Scope R_scope.

(** a KeplerianOrbit as the machine computes it; [mask] is its in_transit, of
    which nothing is assumed *)
Definition computed_kepler (rd : rounder) (k : consts) (o : orbit tens) (mask : tens -> tens -> option tens -> bool -> res (list nat)) : orbit_api :=
  {| oa_pos := fun t ld => Ok (@get_relative_position tens btens (rounded_tens rd) k o (@kep_warp tens btens (rounded_tens rd) o) t None ld);
     oa_in_transit := mask; oa_r_star := o_r_star o |}.

(** the attributes that positions depend on *)
Definition attribute_list (o : orbit tens) : list tens :=
  [o_a o; o_r_star o; o_n o; o_cos_incl o; o_sin_incl o; o_t0 o; o_tref o]
  ++ match o_ecc o with None => [] | Some d => [e_ecc d; e_cosw d; e_sinw d] end
  ++ match o_Omega o with None => [] | Some w => [O_cos w; O_sin w] end.
(** a number, or a vector of n numbers *)
Definition one_or_each (n : nat) (a : tens) : Prop :=
  (ash a = Ok [] /\ forall i i', aget a i = aget a i') \/ (ash a = Ok [n] /\ forall i i', i O = i' O -> aget a i = aget a i').
(** an orbit of n planets: every attribute is a number or a vector of n numbers,
    and those of planet j are the attributes of os j *)
Definition array_orbit (n : nat) (o : orbit tens) (os : nat -> orbit R) : Prop :=
  List.Forall (one_or_each n) (attribute_list o) /\ (ash (o_n o) = Ok [n] \/ n = 1%nat) /\
  forall i, (i O < n)%nat -> orbit_at i o = fin_orbit (os (i O)).

(** an orbit as the constructor computes it, with positive sizes, an eccentricity
    below 1 and, where they are given, a sine and cosine of omega that fit
    together *)
Record machine_orbit (u : R) (rd : rounder) (k : consts) (x : kargs R) (o : orbit R) : Prop := {
  mo_init : @kep_init R bool (rounded rd) k x = Ok o;
  mo_sizes : sizes o;
  mo_incl : Rabs (o_cos_incl o) <= 1 + u;
  mo_ecc : forall e, ka_ecc x = Some e -> 0 <= e < 1;
  mo_sin : forall s, ka_sin_omega x = Some s -> Rabs s <= 1;
  mo_cos : forall c, ka_cos_omega x = Some c -> Rabs c <= 1;
  mo_omega : forall s c, ka_sin_omega x = Some s -> ka_cos_omega x = Some c -> 9 / 10 <= s * s + c * c }.

(** the error of the position at time t *)
Definition motion_error (u : R) (o : orbit R) (t : R) : R := 210 * u * o_a o * slack o * (1 + slack o ^ 3 * swing o t).
(** the precision suffices at time t, and a planet of radius r does not come
    close to the star *)
Definition far_enough (u : R) (o : orbit R) (r t : R) : Prop :=
  u * slack o * (6 + 8 * (slack o ^ 3 * swing o t)) <= 1 / 10 /\
  r + o_r_star o + 3 * motion_error u o t < 4 / 5 * (o_a o / slack o).

(** how far the times of the nodes of an exposure e at time t are from those of
    the exact rule *)
Definition time_shift (u t e : R) : R := u * (Rabs t + 2 * Rabs e).
(** the largest angle during the exposure, as in swing *)
Definition exposure_swing (u : R) (o : orbit R) (t e : R) : R := swing o t + o_n o * (Rabs e + time_shift u t e).
(** the error of the positions during the exposure *)
Definition exposure_error (u : R) (o : orbit R) (t e : R) : R :=
  210 * u * o_a o * slack o * (1 + slack o ^ 3 * exposure_swing u o t e) + 5 * (o_a o * slack o * o_n o * time_shift u t e).
Definition far_exposed (u : R) (o : orbit R) (r t e : R) : Prop :=
  u * slack o * (6 + 8 * (slack o ^ 3 * exposure_swing u o t e)) <= 1 / 10 /\
  r + o_r_star o + 3 * exposure_error u o t e < 4 / 5 * (o_a o / slack o).

(** arguments of the constructor for n planets, those of planet j are xs j; no
    duration, and eccentricities that leave the precision its room *)
Record machine_args (u : R) (n : nat) (x : kargs tens) (xs : nat -> kargs R) : Prop := {
  ma_planets : planet_args n x;
  ma_numbers : forall j, (j < n)%nat -> args_at (at_planet j) x = fin_args (xs j);
  ma_duration : ka_duration x = None;
  ma_ecc : forall j e, (j < n)%nat -> ka_ecc (xs j) = Some e -> e + 4 * u < 1 }.
