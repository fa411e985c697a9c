(** * Rounding errors stay small: property C101 *)
From Coq Require Import Reals List ZArith.
From Verif Require Import Num CoreOps Inst M_units M_kepler Spec_orbit Spec_params Spec_float Spec_float8 L_float3 L_float6 L_float35 Ex_orbit Ex_float.
Open Scope R_scope.

(** the attributes of every accepted orbit still fit together, up to a few rounding errors *)
Theorem C101_attributes : forall (u : R) (rd : rounder), accurate u rd -> forall k, consts_ok k -> forall x o, @kep_init R bool (rounded rd) k x = Ok o -> sizes o -> nearly_consistent k u o.
Proof. exact attributes. Qed.
Print Assumptions C101_attributes.
(** with the right signs *)
Theorem C101_signs : forall (u : R) (rd : rounder), accurate u rd -> forall k, consts_ok k -> forall x o, @kep_init R bool (rounded rd) k x = Ok o -> sizes o -> directed o.
Proof. exact attribute_signs. Qed.
Print Assumptions C101_signs.

(** positions, velocities and radial velocities are those of exact arithmetic on the same attributes, up to rounding errors that grow in proportion to the time from t0 *)
Theorem C101_motion : forall (u : R) (rd : rounder), accurate u rd -> forall k x o, consts_ok k -> @kep_init R bool (rounded rd) k x = Ok o -> sizes o -> exact_zero rd -> Rabs (o_cos_incl o) <= 1 + u ->
  (forall e, ka_ecc x = Some e -> 0 <= e < 1) -> (forall s, ka_sin_omega x = Some s -> Rabs s <= 1) -> (forall c, ka_cos_omega x = Some c -> Rabs c <= 1) ->
  let w := @kep_warp R bool (rounded rd) o in let w' := @kep_warp R bool NumR o in
  (forall t, u * slack o * (6 + 8 * (slack o ^ 3 * swing o t)) <= 1 / 10 ->
    near3 (@get_relative_position R bool (rounded rd) k o w t None false) (@get_relative_position R bool NumR k o w' t None false) (210 * u * o_a o * slack o * (1 + slack o ^ 3 * swing o t)) /\
    near3 (@get_planet_position R bool (rounded rd) k o w t None false) (@get_planet_position R bool NumR k o w' t None false) (210 * u * Rabs (o_a_planet o) * slack o * (1 + slack o ^ 3 * swing o t)) /\
    near3 (@get_star_position R bool (rounded rd) k o w t None false) (@get_star_position R bool NumR k o w' t None false) (210 * u * Rabs (o_a_star o) * slack o * (1 + slack o ^ 3 * swing o t))) /\
  (forall t,
    near3 (@get_relative_velocity R bool (rounded rd) o w t) (@get_relative_velocity R bool NumR o w' t) (85 * u * Rabs (o_K0 o * o_m_total o) * (1 + slack o ^ 3 * swing o t)) /\
    near3 (@get_planet_velocity R bool (rounded rd) o w t) (@get_planet_velocity R bool NumR o w' t) (85 * u * Rabs (o_K0 o * o_m_star o) * (1 + slack o ^ 3 * swing o t)) /\
    near3 (@get_star_velocity R bool (rounded rd) o w t) (@get_star_velocity R bool NumR o w' t) (85 * u * Rabs (o_K0 o * o_m_planet o) * (1 + slack o ^ 3 * swing o t))) /\
  (forall t K out, exists v v', @get_radial_velocity R bool (rounded rd) k o w t (Some K) out = Ok v' /\ @get_radial_velocity R bool NumR k o w' t (Some K) out = Ok v /\
    Rabs (v' - v) <= 17 * u * Rabs K * (1 + slack o ^ 3 * swing o t)).
Proof. exact motion. Qed.
Print Assumptions C101_motion.

(** sharper bounds, without further conditions, for circular orbits *)
Theorem C101_circular : forall (u : R) (rd : rounder), accurate u rd -> forall k x o, consts_ok k -> @kep_init R bool (rounded rd) k x = Ok o -> sizes o -> Rabs (o_cos_incl o) <= 1 + u -> ka_ecc x = None ->
  let w := @kep_warp R bool (rounded rd) o in let w' := @kep_warp R bool NumR o in forall t,
  near3 (@get_relative_position R bool (rounded rd) k o w t None false) (@get_relative_position R bool NumR k o w' t None false) (11 * u * o_a o * (1 + swing o t)) /\
  near3 (@get_relative_velocity R bool (rounded rd) o w t) (@get_relative_velocity R bool NumR o w' t) (13 * u * Rabs (o_K0 o * o_m_total o) * (1 + swing o t)) /\
  forall K out, exists v v', @get_radial_velocity R bool (rounded rd) k o w t (Some K) out = Ok v' /\ @get_radial_velocity R bool NumR k o w' t (Some K) out = Ok v /\
    Rabs (v' - v) <= 4 * u * Rabs K * (1 + swing o t).
Proof. exact circular_motion. Qed.
Print Assumptions C101_circular.

(** the planet of a circular orbit is in front of the star at t0, up to rounding errors *)
Theorem C101_mid_transit : forall (u : R) (rd : rounder), accurate u rd -> forall k x o, consts_ok k -> @kep_init R bool (rounded rd) k x = Ok o -> sizes o -> Rabs (o_cos_incl o) <= 1 + u -> ka_ecc x = None -> ka_Omega x = None ->
  near3 (@get_relative_position R bool (rounded rd) k o (@kep_warp R bool (rounded rd) o) (o_t0 o) None false) (0, - (o_a o * o_cos_incl o), o_a o * o_sin_incl o)
    (u * o_a o * (75 + 3 * (o_n o * (Rabs (o_t0 o) + Rabs (o_tper o))))).
Proof. exact mid_transit_close. Qed.
Print Assumptions C101_mid_transit.

(** IEEE double precision (with unbounded exponents) meets the assumption *)
Theorem C101_double : accurate half_ulp double /\ exact_zero double.
Proof. exact double_ok. Qed.
Print Assumptions C101_double.

Example C101_example : exists o, consts_ok ek /\ accurate half_ulp double /\ exact_zero double /\ @kep_init R bool (rounded double) ek ex_ecc_args = Ok o /\ sizes o /\
  Rabs (o_cos_incl o) <= 1 + half_ulp /\ (forall e, ka_ecc ex_ecc_args = Some e -> 0 <= e < 1) /\
  (forall s, ka_sin_omega ex_ecc_args = Some s -> Rabs s <= 1) /\ (forall c, ka_cos_omega ex_ecc_args = Some c -> Rabs c <= 1) /\
  half_ulp * slack o * (6 + 8 * (slack o ^ 3 * swing o 50)) <= 1 / 10.
Proof. exact float_example. Qed.
Example C101_example_circular : exists o, consts_ok ek /\ accurate half_ulp double /\ @kep_init R bool (rounded double) ek ex_circ_args = Ok o /\ sizes o /\
  Rabs (o_cos_incl o) <= 1 + half_ulp /\ ka_ecc ex_circ_args = None /\ ka_Omega ex_circ_args = None.
Proof. exact circ_example. Qed.
