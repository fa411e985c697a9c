(** * C11-C23: motion of star and planet *)
From Coq Require Import Reals Lra Bool List ZArith.
From Coquelicot Require Import Coquelicot.
From Verif Require Import Num CoreOps Inst M_units M_kepler Spec_orbit Spec_params.
From Verif Require Import L_real L_orbit L_motion L_pmotion L_pmotion2 L_pmotion3 L_pmotion4 L_pmotion5 Ex_orbit.
Open Scope R_scope.

(** ** C11 *)
Theorem C11_barycentre : forall k (x : kargs R) o t,
  consts_ok k -> kep_init k x = Ok o -> physical o ->
  let balanced p s := vadd (vscale (o_m_planet o) p) (vscale (o_m_star o) s) = (0, 0, 0) in
  balanced (pos k o Planet t None false) (pos k o Star t None false) /\
  balanced (vel o Planet t) (vel o Star t) /\
  (0 < o_m_planet o -> 0 < o_m_star o -> balanced (acc o Planet t) (acc o Star t)).
Proof.
  exact (fun k x o t kok H Hp => conj (com_pos k kok x o H Hp t)
    (conj (com_vel k kok x o H Hp t) (com_acc k kok x o H Hp t))).
Qed.
Print Assumptions C11_barycentre.

(** hypotheses of C11-C18 and C20 are met by an eccentric inclined orbit of two
    massive bodies *)
Example C11_example : exists o, consts_ok ek /\ kep_init ek ex_ecc_args = Ok o /\ physical o /\
  0 < o_m_planet o /\ 0 < o_m_star o /\ ecc_of o = 3 / 10.
Proof. exact motion_example. Qed.

(** ** C12 *)
Theorem C12_relative : forall k (x : kargs R) o t,
  consts_ok k -> kep_init k x = Ok o -> physical o ->
  (forall par, pos k o Relative t par false = vsub (pos k o Planet t par false) (pos k o Star t par false)) /\
  vel o Relative t = vsub (vel o Planet t) (vel o Star t) /\
  (0 < o_m_planet o -> 0 < o_m_star o -> acc o Relative t = vsub (acc o Planet t) (acc o Star t)).
Proof.
  exact (fun k x o t kok H Hp => conj (rel_pos_eq k kok x o H Hp t)
    (conj (rel_vel_eq k kok x o H Hp t) (rel_acc_eq k kok x o H Hp t))).
Qed.
Print Assumptions C12_relative.
Example C12_example : exists o, consts_ok ek /\ kep_init ek ex_ecc_args = Ok o /\ physical o /\
  0 < o_m_planet o /\ 0 < o_m_star o /\ ecc_of o = 3 / 10.
Proof. exact motion_example. Qed.

(** ** C13 *)
Theorem C13_distance : forall k (x : kargs R) o t,
  consts_ok k -> kep_init k x = Ok o -> physical o ->
  let r u := norm (pos k o Relative u None false) in
  let e := ecc_of o in
  (exists! E, E - e * sin E = 2 * PI / o_period o * (t - o_tper o)) /\
  (forall E, E - e * sin E = 2 * PI / o_period o * (t - o_tper o) -> r t = o_a o * (1 - e * cos E)) /\
  (let p := pos k o Relative t None false in
   let p0 := pos k o Relative (o_tper o) None false in
   r t * (1 + e * (dot p p0 / (norm p * norm p0))) = o_a o * (1 - e * e)) /\
  o_a o * (1 - e) <= r t <= o_a o * (1 + e) /\
  r (o_tper o) = o_a o * (1 - e) /\
  r (o_tper o + o_period o / 2) = o_a o * (1 + e).
Proof. exact distance_law. Qed.
Print Assumptions C13_distance.
Example C13_example : exists o, consts_ok ek /\ kep_init ek ex_ecc_args = Ok o /\ physical o /\
  0 < o_m_planet o /\ 0 < o_m_star o /\ ecc_of o = 3 / 10.
Proof. exact motion_example. Qed.

(** ** C14 *)
Theorem C14_velocity : forall k (x : kargs R) o b t,
  consts_ok k -> kep_init k x = Ok o -> physical o ->
  vderive (fun u => pos k o b u None false) t (vel o b t).
Proof. exact velocity_is_derivative. Qed.
Print Assumptions C14_velocity.
Example C14_example : exists o, consts_ok ek /\ kep_init ek ex_ecc_args = Ok o /\ physical o /\
  0 < o_m_planet o /\ 0 < o_m_star o /\ ecc_of o = 3 / 10.
Proof. exact motion_example. Qed.

(** ** C15 *)
Theorem C15_acceleration : forall k (x : kargs R) o t,
  consts_ok k -> kep_init k x = Ok o -> physical o ->
  (forall b, moving o b -> vderive (vel o b) t (acc o b t)) /\
  let p := pos k o Relative t None false in
  acc o Relative t = vscale (- (G_grav k * o_m_total o) / (norm p * norm p * norm p)) p.
Proof. exact acceleration_law. Qed.
Print Assumptions C15_acceleration.
Example C15_example : exists o, consts_ok ek /\ kep_init ek ex_ecc_args = Ok o /\ physical o /\
  moving o Planet /\ moving o Star.
Proof. exact moving_example. Qed.

(** ** C16 *)
Theorem C16_conserved : forall k (x : kargs R) o t,
  consts_ok k -> kep_init k x = Ok o -> physical o ->
  let p u := pos k o Relative u None false in
  let v u := vel o Relative u in
  let mu := G_grav k * o_m_total o in
  let L := sqrt (mu * o_a o * (1 - ecc_of o * ecc_of o)) in
  dot (v t) (v t) / 2 - mu / norm (p t) = - mu / (2 * o_a o) /\
  (forall t', cross (p t') (v t') = cross (p t) (v t)) /\
  norm (cross (p t) (v t)) = L /\
  vz (cross (p t) (v t)) = L * o_cos_incl o.
Proof. exact conserved_quantities. Qed.
Print Assumptions C16_conserved.
Example C16_example : exists o, consts_ok ek /\ kep_init ek ex_ecc_args = Ok o /\ physical o /\
  0 < o_m_planet o /\ 0 < o_m_star o /\ ecc_of o = 3 / 10.
Proof. exact motion_example. Qed.

(** ** C17 *)
Theorem C17_periodic : forall k (x : kargs R) o t (j : Z) par ld K u,
  consts_ok k -> kep_init k x = Ok o -> physical o ->
  let t' := t + IZR j * o_period o in
  (forall b, pos k o b t' par ld = pos k o b t par ld /\ vel o b t' = vel o b t /\ acc o b t' = acc o b t) /\
  get_relative_angles k o (kep_warp o) t' par ld = get_relative_angles k o (kep_warp o) t par ld /\
  get_radial_velocity k o (kep_warp o) t' K u = get_radial_velocity k o (kep_warp o) t K u.
Proof. exact periodic_motion. Qed.
Print Assumptions C17_periodic.
Example C17_example : exists o, consts_ok ek /\ kep_init ek ex_ecc_args = Ok o /\ physical o /\
  0 < o_m_planet o /\ 0 < o_m_star o /\ ecc_of o = 3 / 10.
Proof. exact motion_example. Qed.

(** ** C18 *)
Theorem C18_radial_velocity : forall k (x : kargs R) o t,
  consts_ok k -> kep_init k x = Ok o -> physical o ->
  let rv K u := get_radial_velocity k o (kep_warp o) t K u in
  let z s := vz (pos k o Star s None false) in
  ex_derive z t /\
  (forall u c, uto (u_Rsun_per_day k) u = Ok c ->
     rv None (Some u) = Ok (- c * Derive z t) /\
     rv None (Some u) = rv (Some (c * (o_K0 o * o_m_planet o * o_sin_incl o))) None) /\
  rv None None = rv None (Some (u_mps k)) /\
  (forall u, udim u <> (0, 1, -1)%Z -> rv None (Some u) = Err UnitErr) /\
  (forall K u v, 0 <= K -> rv (Some K) u = Ok v ->
     K * (ecc_of o * cosw_of o - 1) <= v <= K * (ecc_of o * cosw_of o + 1)).
Proof. exact radial_velocity_law. Qed.
Print Assumptions C18_radial_velocity.
Example C18_example : exists o c, consts_ok ek /\ kep_init ek ex_ecc_args = Ok o /\ physical o /\
  uto (u_Rsun_per_day ek) (u_mps ek) = Ok c.
Proof. exact rv_example. Qed.

(** ** C19 *)
Theorem C19_angles : forall k (x : kargs R) o t,
  consts_ok k -> kep_init k x = Ok o -> physical o ->
  (forall par ld, let '(rho, th) := get_relative_angles k o (kep_warp o) t par ld in
     let p := pos k o Relative t par ld in
     0 <= rho /\ - PI < th <= PI /\ rho * cos th = vx p /\ rho * sin th = vy p) /\
  (forall p, 0 < p -> let '(rho, th) := get_relative_angles k o (kep_warp o) t None false in
     get_relative_angles k o (kep_warp o) t (Some p) false = (p * au_per_R_sun k * rho, th)).
Proof.
  exact (fun k x o t kok H Hp => conj (rel_angles_polar k o t) (rel_angles_parallax k kok x o H Hp t)).
Qed.
Print Assumptions C19_angles.
(** deviation: with light_delay the parallax has no effect *)
Theorem C19_parallax_ignored_refuted : forall k (o : orbit R) t p,
  pos k o Relative t (Some p) true = pos k o Relative t None true /\
  get_relative_angles k o (kep_warp o) t (Some p) true = get_relative_angles k o (kep_warp o) t None true.
Proof. exact parallax_ignored. Qed.
Print Assumptions C19_parallax_ignored_refuted.
Example C19_example : exists o, consts_ok ek /\ kep_init ek ex_ecc_args = Ok o /\ physical o /\
  0 < o_m_planet o /\ 0 < o_m_star o /\ ecc_of o = 3 / 10.
Proof. exact motion_example. Qed.

(** ** C20.  For a body that moves slower than light: the delayed position is the
    undelayed one at t - d; d solves the light-travel equation with linear
    motion, or the one with the acceleration term reversed; and in every case
    d solves the exact equation c d = - z(t - d) up to second order in d. *)
Theorem C20_light_delay : forall k (x : kargs R) o b t par,
  consts_ok k -> kep_init k x = Ok o -> physical o -> moving o b ->
  let z u := vz (pos k o b u None false) in
  let v := vz (vel o b t) in
  let a := vz (acc o b t) in
  v < c_light k ->
  2 * a * (0 - z t) <= (c_light k - v) * (c_light k - v) ->
  exists d,
    pos k o b t par true = pos k o b (t - d) None false /\
    (Rabs a < 1 / 10000000000 -> c_light k * d = - (z t - v * d)) /\
    (1 / 10000000000 <= Rabs a -> c_light k * d = - (z t - v * d - a / 2 * (d * d)) /\
       (z t <> 0 -> c_light k * d <> - (z t - v * d + a / 2 * (d * d)))) /\
    Rabs (c_light k * d - - z (t - d))
      <= o_a o * ((2 * PI / o_period o) * (2 * PI / o_period o)) / ((1 - ecc_of o) * (1 - ecc_of o)) * (d * d).
Proof. exact light_delay_law. Qed.
Print Assumptions C20_light_delay.
Example C20_example : exists o, consts_ok ek /\ kep_init ek ex_circ_args = Ok o /\ physical o /\
  moving o Relative /\
  let t := o_t0 o in
  vz (vel o Relative t) < c_light ek /\
  2 * vz (acc o Relative t) * (0 - vz (pos ek o Relative t None false))
    <= (c_light ek - vz (vel o Relative t)) * (c_light ek - vz (vel o Relative t)) /\
  1 / 10000000000 <= Rabs (vz (acc o Relative t)) /\ vz (pos ek o Relative t None false) <> 0.
Proof. exact light_delay_example. Qed.

(** ** C21 *)
Theorem C21_true_anomaly : forall M e : R, 0 <= e < 1 ->
  (exists! E, E - e * sin E = M) /\
  - PI < get_true_anomaly M e <= PI /\
  (forall E, E - e * sin E = M ->
     cos (get_true_anomaly M e) = (cos E - e) / (1 - e * cos E) /\
     sin (get_true_anomaly M e) = sqrt (1 - e * e) * sin E / (1 - e * cos E) /\
     (cos (E / 2) <> 0 -> tan (get_true_anomaly M e / 2) = sqrt ((1 + e) / (1 - e)) * tan (E / 2))) /\
  (forall j : Z, get_true_anomaly (M + IZR j * (2 * PI)) e = get_true_anomaly M e) /\
  (get_true_anomaly M e <> PI -> get_true_anomaly (- M) e = - get_true_anomaly M e) /\
  (exists j : Z, get_true_anomaly M 0 = M + IZR j * (2 * PI)).
Proof. exact true_anomaly_law. Qed.
Print Assumptions C21_true_anomaly.
Example C21_example : 0 <= 9 / 10 < 1 /\ get_true_anomaly (0 : R) (9 / 10) = 0.
Proof. exact true_anomaly_example. Qed.

(** ** C22 *)
Theorem C22_circular_limit : forall k (x : kargs R) o w,
  consts_ok k -> kep_init k x = Ok o -> physical o ->
  sin w <> -1 -> ka_ecc x = None -> ka_duration x = None -> ka_tper x = None ->
  exists o', kep_init k (with_ecc x 0 w) = Ok o' /\ o_t0 o' = o_t0 o /\ same_motion k o o'.
Proof. exact ecc0_motion. Qed.
Print Assumptions C22_circular_limit.
Example C22_example : exists o, kep_init ek ex_circ_args = Ok o /\ physical o /\
  ka_ecc ex_circ_args = None /\ ka_duration ex_circ_args = None /\ ka_tper ex_circ_args = None /\ sin 1 <> -1.
Proof. exact circ_example. Qed.

(** ** C23 *)
Theorem C23_flip : forall k (x : kargs R) o r,
  consts_ok k -> kep_init k x = Ok o -> physical o -> 0 < r ->
  exists o', flip k o r = Ok o' /\ physical o' /\ o_r_star o' = r /\
    o_m_star o' = o_m_planet o /\ o_m_planet o' = o_m_star o /\
    (forall t par, pos k o' Planet t par false = pos k o Star t par false /\
                   pos k o' Star t par false = pos k o Planet t par false /\
                   vel o' Planet t = vel o Star t /\ vel o' Star t = vel o Planet t) /\
    (forall r', 0 < r' -> exists o2, flip k o' r' = Ok o2 /\ o_r_star o2 = r' /\ same_motion k o o2).
Proof. exact flip_law. Qed.
Print Assumptions C23_flip.
Example C23_example : exists o, consts_ok ek /\ kep_init ek ex_ecc_args = Ok o /\ physical o /\
  0 < o_m_planet o /\ 0 < o_m_star o /\ ecc_of o = 3 / 10.
Proof. exact motion_example. Qed.
