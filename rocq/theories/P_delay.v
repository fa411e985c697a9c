(** * Light curves with light-travel time: property C79 *)
From Coq Require Import Reals List Bool Arith ZArith.
From Verif Require Import Num CoreOps Inst CoreFlux M_units M_kepler M_fin M_tensor M_simple M_ttv M_limbdark M_secondary
  Spec_orbit Spec_params Spec_array Spec_light Spec_secondary Spec_delay Ex_orbit Ex_system Ex_delay L_delay L_delay2 L_delay3.
Import ListNotations.
Open Scope R_scope.

(** ** C79 *)
(** the hypotheses of C20 hold at all times on an orbit whose speed at
    periastron is at most two fifths of the speed of light *)
Theorem C79_slow : forall k (x : kargs R) o b t, consts_ok k -> kep_init k x = Ok o -> physical o -> slow k o -> moving o b ->
  let z := vz (pos k o b t None false) in let v := vz (vel o b t) in let a := vz (acc o b t) in
  Rabs v <= peak_speed o /\ v < c_light k /\ 0 <= 2 * a * (0 - z) <= (c_light k - v) * (c_light k - v).
Proof. exact slow_motion. Qed.
Print Assumptions C79_slow.
(** there the delay is defined, has the sign of minus the line-of-sight
    coordinate, is of the order of the light-travel time and shorter than a
    quarter of the period *)
Theorem C79_delay : forall k (x : kargs R) o b t par, consts_ok k -> kep_init k x = Ok o -> physical o -> slow k o -> moving o b ->
  let z u := vz (pos k o b u None false) in
  exists d g, pos k o b t par true = pos k o b (t - d) None false /\
    5 / 7 <= g <= 10 / 3 /\ c_light k * d = - g * z t /\ 4 * Rabs d < o_period o /\
    Rabs (c_light k * d - - z (t - d))
      <= o_a o * ((2 * PI / o_period o) * (2 * PI / o_period o)) / ((1 - ecc_of o) * (1 - ecc_of o)) * (d * d).
Proof. exact delay_law. Qed.
Print Assumptions C79_delay.
(** the light-travel equation has exactly one solution, and the code's delay is
    within a multiple of d^2 of it *)
Theorem C79_accuracy : forall k (x : kargs R) o b t par, consts_ok k -> kep_init k x = Ok o -> physical o -> slow k o -> moving o b ->
  let z u := vz (pos k o b u None false) in
  exists d d0, pos k o b t par true = pos k o b (t - d) None false /\
    c_light k * d0 = - z (t - d0) /\ (forall d1, c_light k * d1 = - z (t - d1) -> d1 = d0) /\
    Rabs (d - d0) <= 5 / 3 * (o_a o * ((2 * PI / o_period o) * (2 * PI / o_period o)) / ((1 - ecc_of o) * (1 - ecc_of o)) / c_light k) * (d * d) /\
    Rabs (vz (pos k o b t par true) - z (t - d0)) <= peak_speed o * Rabs (d - d0).
Proof. exact delay_accuracy. Qed.
Print Assumptions C79_accuracy.
(** light curves with light_delay are those of the delayed positions *)
Theorem C79_light : forall k n (x : kargs tens) xs os o, consts_ok k -> system k n x xs os -> kep_init k x = Ok o -> (forall j, (j < n)%nat -> slow k (os j)) ->
  forall u1 u2 cp r rs N t ts os' order, disk_flux u1 u2 <> 0 -> elements n r rs ->
  is_vector N t -> (forall m, (m < N)%nat -> aget t (at_time m) = Fin (ts m)) ->
  exists X, get_light_curve (ld_init (Fin u1) (Fin u2)) (Some (kep_api k cp o)) (Some r) (Some t) None os' order None true = Ok X /\
    light_table n N X (fun m j => flux_at u1 u2 (pos k (os j) Relative (ts m) None true) (rs j) (o_r_star (os j))).
Proof. exact delay_light. Qed.
Print Assumptions C79_light.
(** the same with exposure times *)
Theorem C79_exposed : forall k n (x : kargs tens) xs os o, consts_ok k -> system k n x xs os -> kep_init k x = Ok o -> (forall j, (j < n)%nat -> slow k (os j)) ->
  forall u1 u2 cp r rs N t ts e es os' order nodes weights, disk_flux u1 u2 <> 0 -> elements n r rs ->
  is_vector N t -> (forall m, (m < N)%nat -> aget t (at_time m) = Fin (ts m)) -> exposures N e es -> stencil os' order = Ok (nodes, weights) ->
  exists X, get_light_curve (ld_init (Fin u1) (Fin u2)) (Some (kep_api k cp o)) (Some r) (Some t) (Some e) os' order None true = Ok X /\
    light_table n N X (fun m j => node_mean nodes weights (fun u => flux_at u1 u2 (pos k (os j) Relative u None true) (rs j) (o_r_star (os j))) (ts m) (es m)).
Proof. exact delay_exposed. Qed.
Print Assumptions C79_exposed.
(** hence every entry is the flux of the undelayed orbit at the time the light
    left: transits, with the planet in front, are seen early *)
Theorem C79_shifted : forall k n (x : kargs tens) xs os o, consts_ok k -> system k n x xs os -> kep_init k x = Ok o -> (forall j, (j < n)%nat -> slow k (os j)) ->
  forall u1 u2 cp r rs N t ts os' order, disk_flux u1 u2 <> 0 -> elements n r rs ->
  is_vector N t -> (forall m, (m < N)%nat -> aget t (at_time m) = Fin (ts m)) ->
  exists X, get_light_curve (ld_init (Fin u1) (Fin u2)) (Some (kep_api k cp o)) (Some r) (Some t) None os' order None true = Ok X /\ ash X = Ok [n; N] /\
    forall m j, (m < N)%nat -> (j < n)%nat -> let z u := vz (pos k (os j) Relative u None false) in
    exists d g, aget X (at_tp m j) = Fin (flux_at u1 u2 (pos k (os j) Relative (ts m - d) None false) (rs j) (o_r_star (os j))) /\
      5 / 7 <= g <= 10 / 3 /\ c_light k * d = - g * z (ts m) /\ 4 * Rabs d < o_period (os j).
Proof. exact delay_shifted. Qed.
Print Assumptions C79_shifted.
(** secondary eclipses: the second light curve is that of the delayed
    positions of the flipped orbit *)
Theorem C79_secondary : forall k n (x : kargs tens) xs os o, consts_ok k -> system k n x xs os -> kep_init k x = Ok o -> (forall j, (j < n)%nat -> slow k (os j)) ->
  forall r rs, planet_values n r rs -> (forall j, (j < n)%nat -> 0 < rs j) ->
  forall u1 u2 v1 v2 cp s ss N t ts os' order,
  disk_flux u1 u2 <> 0 -> disk_flux v1 v2 <> 0 -> one_each n r -> one_each n (o_r_star o) ->
  planet_values n s ss -> (forall j, (j < n)%nat -> 0 <= ss j) ->
  is_vector N t -> (forall m, (m < N)%nat -> aget t (at_time m) = Fin (ts m)) ->
  exists X os2, secondary_light_curve k cp {| se_primary := ld_init (Fin u1) (Fin u2); se_secondary := ld_init (Fin v1) (Fin v2); se_ratio := s |}
      o r (Some t) None os' order None true = Ok X /\
    (forall j, (j < n)%nat -> flip k (os j) (rs j) = Ok (os2 j)) /\
    light_table n N X (fun m j =>
      mixture (flux_ratio (ss j) (rs j) (o_r_star (os j))) (flux_at u1 u2 (pos k (os j) Relative (ts m) None true) (rs j) (o_r_star (os j)))
        (flux_at v1 v2 (pos k (os2 j) Relative (ts m) None true) (o_r_star (os j)) (rs j))).
Proof. exact delay_second. Qed.
Print Assumptions C79_secondary.
(** the same with exposure times *)
Theorem C79_secondary_exposed : forall k n (x : kargs tens) xs os o, consts_ok k -> system k n x xs os -> kep_init k x = Ok o -> (forall j, (j < n)%nat -> slow k (os j)) ->
  forall r rs, planet_values n r rs -> (forall j, (j < n)%nat -> 0 < rs j) ->
  forall u1 u2 v1 v2 cp s ss N t ts e es os' order nodes weights,
  disk_flux u1 u2 <> 0 -> disk_flux v1 v2 <> 0 -> one_each n r -> one_each n (o_r_star o) ->
  planet_values n s ss -> (forall j, (j < n)%nat -> 0 <= ss j) ->
  is_vector N t -> (forall m, (m < N)%nat -> aget t (at_time m) = Fin (ts m)) -> exposures N e es -> stencil os' order = Ok (nodes, weights) ->
  exists X os2, secondary_light_curve k cp {| se_primary := ld_init (Fin u1) (Fin u2); se_secondary := ld_init (Fin v1) (Fin v2); se_ratio := s |}
      o r (Some t) (Some e) os' order None true = Ok X /\
    (forall j, (j < n)%nat -> flip k (os j) (rs j) = Ok (os2 j)) /\
    light_table n N X (fun m j =>
      mixture (flux_ratio (ss j) (rs j) (o_r_star (os j)))
        (node_mean nodes weights (fun u => flux_at u1 u2 (pos k (os j) Relative u None true) (rs j) (o_r_star (os j))) (ts m) (es m))
        (node_mean nodes weights (fun u => flux_at v1 v2 (pos k (os2 j) Relative u None true) (o_r_star (os j)) (rs j)) (ts m) (es m))).
Proof. exact delay_second_exposed. Qed.
Print Assumptions C79_secondary_exposed.
(** by default no mask is used *)
Theorem C79_default_mask : forall k cp se o r t texp os order,
  secondary_light_curve k cp se o r t texp os order None true = secondary_light_curve k cp se o r t texp os order (Some false) true.
Proof. exact delay_mask. Qed.
Print Assumptions C79_default_mask.
(** deviation: the delay of the flipped orbit has the sign of the planet's
    coordinate.  Eclipses of the planet are shown early, as its transits are,
    although its light then has to travel further *)
Theorem C79_eclipse_shift : forall k (x : kargs R) o r o2 t, consts_ok k -> kep_init k x = Ok o -> physical o -> slow k o -> 0 < r -> flip k o r = Ok o2 ->
  let z u := vz (pos k o Relative u None false) in
  exists d g, pos k o2 Relative t None true = opposite (pos k o Relative (t - d) None false) /\
    5 / 7 <= g <= 10 / 3 /\ c_light k * d = g * z t /\ 4 * Rabs d < o_period o /\
    Rabs (c_light k * d - z (t - d))
      <= o_a o * ((2 * PI / o_period o) * (2 * PI / o_period o)) / ((1 - ecc_of o) * (1 - ecc_of o)) * (d * d).
Proof. exact eclipse_shift. Qed.
Print Assumptions C79_eclipse_shift.
(** with the planet behind the star, what is shown is not the system as it was
    at any time in the last three quarters of a period *)
Theorem C79_eclipse_delay_refuted : forall k (x : kargs R) o r o2 t, consts_ok k -> kep_init k x = Ok o -> physical o -> slow k o -> 0 < r -> flip k o r = Ok o2 ->
  vz (pos k o Relative t None false) < 0 ->
  forall d, 0 <= d <= 3 / 4 * o_period o -> pos k o2 Relative t None true <> opposite (pos k o Relative (t - d) None false).
Proof. exact eclipse_wrong. Qed.
Print Assumptions C79_eclipse_delay_refuted.
Example C79_example : exists os o o2, disk_flux (3 / 10) (2 / 10) <> 0 /\ consts_ok ek /\
  system ek 1 (ex_sys_args 1 ex_bs) (fun j => ex_b_args (ex_bs j)) os /\ kep_init ek (ex_sys_args 1 ex_bs) = Ok o /\
  (forall j, (j < 1)%nat -> slow ek (os j)) /\
  planet_values 1 (scalar (1 / 10)) (fun _ => 1 / 10) /\ one_each 1 (scalar (1 / 10)) /\ one_each 1 (o_r_star o) /\
  elements 1 (scalar (1 / 10)) (fun _ => 1 / 10) /\
  is_vector 3 (vector 3 INR) /\ (forall m, (m < 3)%nat -> aget (vector 3 INR) (at_time m) = Fin (INR m)) /\
  flip ek (os O) (1 / 10) = Ok o2 /\ vz (pos ek (os O) Relative 7 None false) < 0.
Proof. exact delay_example. Qed.
