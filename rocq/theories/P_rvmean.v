(** * Means and extremes of radial velocities: property C89 *)
From Coq Require Import Reals List ZArith.
From Coquelicot Require Import Coquelicot.
From Verif Require Import Num CoreOps Inst M_units M_kepler Spec_orbit Spec_params L_rvmean L_pmotion5 Ex_orbit.
Open Scope R_scope.

(** the radial velocity adds up to the displacement of the star, and over any whole period to nothing *)
Theorem C89_mean : forall k (x : kargs R) o, consts_ok k -> kep_init k x = Ok o -> physical o ->
  let rv K u t := get_radial_velocity k o (kep_warp o) t K u in
  let z s := vz (pos k o Star s None false) in
  (forall K u, exists v, (forall t, rv (Some K) u t = Ok (v t)) /\ forall T, is_RInt v T (T + o_period o) 0) /\
  (forall u c, uto (u_Rsun_per_day k) u = Ok c -> exists v, (forall t, rv None (Some u) t = Ok (v t)) /\
     (forall a b, is_RInt v a b (- c * (z b - z a))) /\ forall T, is_RInt v T (T + o_period o) 0).
Proof. exact rv_mean. Qed.
Print Assumptions C89_mean.
(** every window of one period holds the two extremes, which are 2 K apart *)
Theorem C89_extremes : forall k (x : kargs R) o, consts_ok k -> kep_init k x = Ok o -> physical o ->
  let rv K u t := get_radial_velocity k o (kep_warp o) t K u in
  forall K u T, exists t1 t2, T <= t1 < T + o_period o /\ T <= t2 < T + o_period o /\
    rv (Some K) u t1 = Ok (K * (ecc_of o * cosw_of o + 1)) /\ rv (Some K) u t2 = Ok (K * (ecc_of o * cosw_of o - 1)) /\
    (0 <= K -> forall t v, rv (Some K) u t = Ok v -> K * (ecc_of o * cosw_of o - 1) <= v <= K * (ecc_of o * cosw_of o + 1)).
Proof. exact rv_extremes. Qed.
Print Assumptions C89_extremes.
(** the semi-amplitude of the radial velocity computed from the masses, and the mass function *)
Theorem C89_amplitude : forall k (x : kargs R) o, consts_ok k -> kep_init k x = Ok o -> physical o ->
  let rv K u t := get_radial_velocity k o (kep_warp o) t K u in
  exists K, (forall u c t, uto (u_Rsun_per_day k) u = Ok c -> rv None (Some u) t = rv (Some (c * K)) None t) /\
    let q := sqrt (1 - ecc_of o * ecc_of o) in
    K = 2 * PI / o_period o * (o_a o * o_m_planet o / o_m_total o) * sin (o_incl o) / q /\
    o_period o * (K * q) ^ 3 * o_m_total o ^ 2 = 2 * PI * G_grav k * (o_m_planet o * sin (o_incl o)) ^ 3.
Proof. exact rv_amplitude. Qed.
Print Assumptions C89_amplitude.
(** an eccentric inclined orbit of two massive bodies *)
Example C89_example : exists o c, consts_ok ek /\ kep_init ek ex_ecc_args = Ok o /\ physical o /\
  uto (u_Rsun_per_day ek) (u_mps ek) = Ok c.
Proof. exact rv_example. Qed.
