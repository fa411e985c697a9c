(** * What radial velocities and positions on the sky determine: property C103 *)
From Coq Require Import Reals List Bool Arith ZArith.
From Verif Require Import Num CoreOps Inst M_units M_kepler Spec_orbit Spec_params Spec_sym Spec_ident L_ident3 Ex_orbit Ex_ident.
Open Scope R_scope.

(** two orbits have the same radial velocity curve, for given semi-amplitudes, if and only if the semi-amplitude, the period, the eccentricity, e cos omega, e sin omega and, up to a multiple of the period, t0 are the same *)
Theorem C103_radial_velocity : forall k (x x' : kargs R) o o' K K' u u', consts_ok k -> kep_init k x = Ok o -> kep_init k x' = Ok o' -> physical o -> physical o' -> same_t0 o o' -> 0 < K -> 0 < K' ->
  ((forall t, get_radial_velocity k o (kep_warp o) t (Some K) u = get_radial_velocity k o' (kep_warp o') t (Some K') u') <-> K = K' /\ same_timing o o').
Proof. exact rv_determines. Qed.
Print Assumptions C103_radial_velocity.

(** with the masses instead of a semi-amplitude: the masses, the inclination and the semi-major axis enter through the semi-amplitude only, and the node not at all *)
Theorem C103_masses : forall k (x x' : kargs R) o o' u c, consts_ok k -> kep_init k x = Ok o -> kep_init k x' = Ok o' -> physical o -> physical o' -> same_t0 o o' ->
  uto (u_Rsun_per_day k) u = Ok c -> 0 < c -> 0 < o_m_planet o -> 0 < o_m_planet o' -> 0 < sin (o_incl o) -> 0 < sin (o_incl o') ->
  ((forall t, get_radial_velocity k o (kep_warp o) t None (Some u) = get_radial_velocity k o' (kep_warp o') t None (Some u)) <-> amplitude o = amplitude o' /\ same_timing o o').
Proof. exact rv_masses. Qed.
Print Assumptions C103_masses.

Example C103_example_velocity : exists o o' c, consts_ok ek /\ kep_init ek (set_Omega ident_args None) = Ok o /\ kep_init ek (set_Omega ident_args (Some 2)) = Ok o' /\ physical o /\ physical o' /\ same_t0 o o' /\
  uto (u_Rsun_per_day ek) (u_mps ek) = Ok c /\ 0 < c /\ 0 < o_m_planet o /\ 0 < o_m_planet o' /\ 0 < sin (o_incl o) /\ 0 < sin (o_incl o') /\ amplitude o = amplitude o' /\ same_timing o o'.
Proof. exact velocity_example. Qed.

(** the positions on the sky at all times determine the semi-major axis, the period, the eccentricity and the motion in three dimensions up to a reflection along the line of sight *)
Theorem C103_sky : forall k (x x' : kargs R) o o', consts_ok k -> kep_init k x = Ok o -> kep_init k x' = Ok o' -> physical o -> physical o' ->
  (forall t, vx (pos k o Relative t None false) = vx (pos k o' Relative t None false) /\ vy (pos k o Relative t None false) = vy (pos k o' Relative t None false)) ->
  o_a o = o_a o' /\ o_period o = o_period o' /\ ecc_of o = ecc_of o' /\
  ((forall t, pos k o' Relative t None false = pos k o Relative t None false) \/ forall t, pos k o' Relative t None false = flip_z (pos k o Relative t None false)).
Proof. exact sky_determines. Qed.
Print Assumptions C103_sky.

(** the reflection is a real ambiguity: with omega and Omega turned by 180 degrees the planet moves in the same way on the sky and in the opposite way along the line of sight *)
Theorem C103_twin : forall k (x : kargs R) o, consts_ok k -> kep_init k x = Ok o -> physical o -> ka_ecc x <> None -> ka_tper x <> None -> ka_b x = None -> ka_duration x = None ->
  exists o', kep_init k (twin x) = Ok o' /\ physical o' /\ forall t,
    (forall b par, pos k o' b t par false = flip_z (pos k o b t par false)) /\ (forall b, vel o' b t = flip_z (vel o b t)) /\
    (forall par, get_relative_angles k o' (kep_warp o') t par false = get_relative_angles k o (kep_warp o) t par false) /\
    (forall K u, get_radial_velocity k o' (kep_warp o') t K u = rmap Ropp (get_radial_velocity k o (kep_warp o) t K u)).
Proof. exact twin_motion. Qed.
Print Assumptions C103_twin.

Example C103_example_twin : exists o o', consts_ok ek /\ kep_init ek ident_args = Ok o /\ kep_init ek (twin ident_args) = Ok o' /\ physical o /\ physical o' /\
  ka_ecc ident_args <> None /\ ka_tper ident_args <> None /\ ka_b ident_args = None /\ ka_duration ident_args = None /\
  (forall t, vx (pos ek o Relative t None false) = vx (pos ek o' Relative t None false) /\ vy (pos ek o Relative t None false) = vy (pos ek o' Relative t None false)) /\
  vz (pos ek o' Relative (o_t0 o) None false) < 0 < vz (pos ek o Relative (o_t0 o) None false).
Proof. exact twin_example. Qed.

(** the sign of one velocity along the line of sight decides *)
Theorem C103_sense : forall k (x x' : kargs R) o o' t1, consts_ok k -> kep_init k x = Ok o -> kep_init k x' = Ok o' -> physical o -> physical o' ->
  (forall t, vx (pos k o Relative t None false) = vx (pos k o' Relative t None false) /\ vy (pos k o Relative t None false) = vy (pos k o' Relative t None false)) ->
  vz (vel o' Relative t1) * vz (vel o Relative t1) > 0 -> forall t, pos k o' Relative t None false = pos k o Relative t None false.
Proof. exact sky_and_velocity. Qed.
Print Assumptions C103_sense.

Example C103_example_sense : exists o o' t1, consts_ok ek /\ kep_init ek ident_args = Ok o /\ kep_init ek (later ident_args 10) = Ok o' /\ physical o /\ physical o' /\ o_t0 o' = o_t0 o + 10 /\
  (forall t, vx (pos ek o Relative t None false) = vx (pos ek o' Relative t None false) /\ vy (pos ek o Relative t None false) = vy (pos ek o' Relative t None false)) /\
  vz (vel o' Relative t1) * vz (vel o Relative t1) > 0.
Proof. exact sense_example. Qed.
