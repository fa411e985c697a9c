(** * Orbits that run backwards: property C85 *)
From Coq Require Import Reals List Bool Arith ZArith.
From Verif Require Import Num CoreOps Inst CoreFlux M_units M_kepler M_fin M_tensor M_simple M_ttv M_limbdark M_secondary
  Spec_orbit Spec_params Spec_array Spec_light Spec_secondary Spec_delay Spec_sym Spec_back L_back2 L_back4 Ex_orbit Ex_system Ex_sym Ex_back.
Import ListNotations.
Open Scope R_scope.

(** the orbit with argument of periastron pi - omega runs backwards: seen at 2T - t it is the orbit seen at t, reflected
    across the line at right angles to the nodes *)
Theorem C85_motion : forall k (x : kargs R) o T, consts_ok k -> kep_init k x = Ok o -> physical o ->
  exists o', kep_init k (backwards x (2 * T - o_t0 o)) = Ok o' /\ physical o' /\ o_t0 o' = 2 * T - o_t0 o /\ (o_ecc o <> None -> o_tper o' = 2 * T - o_tper o) /\
  forall t, (forall b par, pos k o' b (2 * T - t) par false = across (node_angle x + PI / 2) (pos k o b t par false)) /\
    (forall b, vel o' b (2 * T - t) = opposite (across (node_angle x + PI / 2) (vel o b t))) /\
    (forall b, acc o' b (2 * T - t) = across (node_angle x + PI / 2) (acc o b t)) /\
    (forall K u, get_radial_velocity k o' (kep_warp o') (2 * T - t) K u = rmap Ropp (get_radial_velocity k o (kep_warp o) t K u)).
Proof. exact backwards_motion. Qed.
Print Assumptions C85_motion.
(** the t_periastron of a circular orbit is a quarter of a period before t0, and does not move with omega *)
Theorem C85_quarter : forall k (x : kargs R) o, consts_ok k -> kep_init k x = Ok o -> physical o -> o_ecc o = None ->
  o_tper o = o_t0 o - o_period o / 4.
Proof. exact circular_quarter. Qed.
Print Assumptions C85_quarter.
(** a circular orbit is its own reverse about every conjunction *)
Theorem C85_circular : forall k (x : kargs R) o (z : Z), consts_ok k -> kep_init k x = Ok o -> physical o -> o_ecc o = None -> forall u,
  let T := o_t0 o + IZR z * (o_period o / 2) in
  (forall b par, pos k o b (T - u) par false = across (node_angle x + PI / 2) (pos k o b (T + u) par false)) /\
  (forall b, vel o b (T - u) = opposite (across (node_angle x + PI / 2) (vel o b (T + u)))) /\
  (forall b, acc o b (T - u) = across (node_angle x + PI / 2) (acc o b (T + u))) /\
  (forall K v, get_radial_velocity k o (kep_warp o) (T - u) K v = rmap Ropp (get_radial_velocity k o (kep_warp o) (T + u) K v)).
Proof. exact circular_motion. Qed.
Print Assumptions C85_circular.
(** the same times are in transit (circular orbits) *)
Theorem C85_in_transit : forall k n x xs os o T x', consts_ok k -> system k n x xs os -> kep_init k x = Ok o -> batch n x' (fun j => backwards (xs j) (2 * T - o_t0 (os j))) ->
  exists o', kep_init k x' = Ok o' /\
  forall cp N t t' ts r rs te es ld, (forall j, (j < n)%nat -> o_ecc (os j) = None) ->
  is_vector N t -> (forall m, (m < N)%nat -> aget t (at_time m) = Fin (ts m)) ->
  is_vector N t' -> (forall m, (m < N)%nat -> aget t' (at_time m) = Fin (2 * T - ts m)) ->
  planet_values n r rs -> opt_values n te es ->
  oa_in_transit (kep_api k (lift_cp cp) o) t r te ld = oa_in_transit (kep_api k (lift_cp cp) o') t' r te ld.
Proof. exact backwards_in_transit. Qed.
Print Assumptions C85_in_transit.
(** light curves are the same, read backwards *)
Theorem C85_light : forall k n x xs os o T x', consts_ok k -> system k n x xs os -> kep_init k x = Ok o -> batch n x' (fun j => backwards (xs j) (2 * T - o_t0 (os j))) ->
  exists o', kep_init k x' = Ok o' /\
  forall u1 u2 cp N t t' ts r rs texp es osam order use,
  is_vector N t -> (forall m, (m < N)%nat -> aget t (at_time m) = Fin (ts m)) ->
  is_vector N t' -> (forall m, (m < N)%nat -> aget t' (at_time m) = Fin (2 * T - ts m)) ->
  disk_flux u1 u2 <> 0 -> elements n r rs -> opt_exposures N texp es -> even_rule texp osam order ->
  (use = Some false \/ (exists e, texp = one_texp e) /\ forall j, (j < n)%nat -> o_ecc (os j) = None) ->
  same_light n N
    (get_light_curve (ld_init (Fin u1) (Fin u2)) (Some (kep_api k (lift_cp cp) o)) (Some r) (Some t) texp osam order use false)
    (get_light_curve (ld_init (Fin u1) (Fin u2)) (Some (kep_api k (lift_cp cp) o')) (Some r) (Some t') texp osam order use false).
Proof. exact backwards_light. Qed.
Print Assumptions C85_light.
(** and secondary eclipses *)
Theorem C85_secondary : forall k n x xs os o T x', consts_ok k -> system k n x xs os -> kep_init k x = Ok o -> batch n x' (fun j => backwards (xs j) (2 * T - o_t0 (os j))) ->
  exists o', kep_init k x' = Ok o' /\
  forall u1 u2 v1 v2 s ss cp r rs N t t' ts texp es osam order use,
  disk_flux u1 u2 <> 0 -> disk_flux v1 v2 <> 0 -> planet_values n r rs -> (forall j, (j < n)%nat -> 0 < rs j) -> one_each n r -> one_each n (o_r_star o) -> one_each n (o_r_star o') ->
  planet_values n s ss -> (forall j, (j < n)%nat -> 0 <= ss j) ->
  is_vector N t -> (forall m, (m < N)%nat -> aget t (at_time m) = Fin (ts m)) ->
  is_vector N t' -> (forall m, (m < N)%nat -> aget t' (at_time m) = Fin (2 * T - ts m)) -> opt_exposures N texp es -> even_rule texp osam order ->
  (use = Some false \/ (exists e, texp = one_texp e) /\ forall j, (j < n)%nat -> o_ecc (os j) = None) ->
  let S := {| se_primary := ld_init (Fin u1) (Fin u2); se_secondary := ld_init (Fin v1) (Fin v2); se_ratio := s |} in
  same_light n N (secondary_light_curve k (lift_cp cp) S o r (Some t) texp osam order use false) (secondary_light_curve k (lift_cp cp) S o' r (Some t') texp osam order use false).
Proof. exact backwards_secondary. Qed.
Print Assumptions C85_secondary.
(** transits and eclipses of circular orbits are symmetric about mid-transit and mid-eclipse *)
Theorem C85_symmetric : forall k n x xs os o T, consts_ok k -> system k n x xs os -> kep_init k x = Ok o ->
  (forall j, (j < n)%nat -> o_ecc (os j) = None /\ exists z : Z, T = o_t0 (os j) + IZR z * (o_period (os j) / 2)) ->
  forall cp N t t' ts, is_vector N t -> (forall m, (m < N)%nat -> aget t (at_time m) = Fin (T + ts m)) ->
  is_vector N t' -> (forall m, (m < N)%nat -> aget t' (at_time m) = Fin (T - ts m)) ->
  (forall r rs te es ld, planet_values n r rs -> opt_values n te es ->
     oa_in_transit (kep_api k (lift_cp cp) o) t r te ld = oa_in_transit (kep_api k (lift_cp cp) o) t' r te ld) /\
  (forall u1 u2 r rs texp es osam order use, disk_flux u1 u2 <> 0 -> elements n r rs -> opt_exposures N texp es -> even_rule texp osam order ->
   use = Some false \/ (exists e, texp = one_texp e) ->
   same_light n N
    (get_light_curve (ld_init (Fin u1) (Fin u2)) (Some (kep_api k (lift_cp cp) o)) (Some r) (Some t) texp osam order use false)
    (get_light_curve (ld_init (Fin u1) (Fin u2)) (Some (kep_api k (lift_cp cp) o)) (Some r) (Some t') texp osam order use false)) /\
  (forall u1 u2 v1 v2 s ss r rs texp es osam order use,
   disk_flux u1 u2 <> 0 -> disk_flux v1 v2 <> 0 -> planet_values n r rs -> (forall j, (j < n)%nat -> 0 < rs j) -> one_each n r -> one_each n (o_r_star o) ->
   planet_values n s ss -> (forall j, (j < n)%nat -> 0 <= ss j) -> opt_exposures N texp es -> even_rule texp osam order ->
   use = Some false \/ (exists e, texp = one_texp e) ->
   let S := {| se_primary := ld_init (Fin u1) (Fin u2); se_secondary := ld_init (Fin v1) (Fin v2); se_ratio := s |} in
   same_light n N (secondary_light_curve k (lift_cp cp) S o r (Some t) texp osam order use false) (secondary_light_curve k (lift_cp cp) S o r (Some t') texp osam order use false)).
Proof. exact circular_symmetric. Qed.
Print Assumptions C85_symmetric.
(** not when exposures are integrated with a single point: that lies at the beginning of the exposure, not in its middle *)
Theorem C85_rule_refuted : forall osam order cp, (0 <= osam <= 1)%Z -> (order = 1 \/ order = 2)%Z -> 
  exists o X X' f f', kep_init ek (ex_full_sys 1 (fun _ => 0) 2 1 1 (1 / 2)) = Ok o /\
  get_light_curve (ld_init (Fin (3 / 10)) (Fin (2 / 10))) (Some (kep_api ek cp o)) (Some (vector 1 (fun _ => 1 / 10))) (Some (vector 1 (fun _ => 2 + 5 / 4))) (one_texp (Some (5 / 2))) osam order (Some false) false = Ok X /\
  get_light_curve (ld_init (Fin (3 / 10)) (Fin (2 / 10))) (Some (kep_api ek cp o)) (Some (vector 1 (fun _ => 1 / 10))) (Some (vector 1 (fun _ => 2 - 5 / 4))) (one_texp (Some (5 / 2))) osam order (Some false) false = Ok X' /\
  light_table 1 1 X f /\ light_table 1 1 X' f' /\ f 0%nat 0%nat < 0 /\ f' 0%nat 0%nat = 0.
Proof. exact one_sided. Qed.
Print Assumptions C85_rule_refuted.
(** nor with light delay: at its mid-transit a circular orbit is not in the middle of the star *)
Theorem C85_delay_refuted : forall k (x : kargs R) o, consts_ok k -> kep_init k x = Ok o -> physical o -> slow k o -> o_ecc o = None -> o_sin_incl o <> 0 ->
  forall par, pos k o Relative (o_t0 o) par true <> across (node_angle x + PI / 2) (pos k o Relative (o_t0 o) par true).
Proof. exact delay_asymmetric. Qed.
Print Assumptions C85_delay_refuted.

(** ** cases meeting the hypotheses *)
Example C85_eccentric_example : exists os o, disk_flux (3 / 10) (2 / 10) <> 0 /\ consts_ok ek /\
  system ek 2 (ex_back_sys 2 1 2) (fun _ => ex_back_args 1 2) os /\ kep_init ek (ex_back_sys 2 1 2) = Ok o /\
  (forall j, (j < 2)%nat -> physical (os j) /\ ecc_of (os j) = 3 / 10 /\ o_ecc (os j) <> None) /\
  batch 2 (ex_back_sys 2 (PI - 1) (2 * 5 - 2)) (fun j => backwards (ex_back_args 1 2) (2 * 5 - o_t0 (os j))) /\
  (forall o', kep_init ek (ex_back_sys 2 (PI - 1) (2 * 5 - 2)) = Ok o' -> one_each 2 (o_r_star o')) /\
  planet_values 2 (vector 2 (fun _ => 1 / 10)) (fun _ => 1 / 10) /\ elements 2 (vector 2 (fun _ => 1 / 10)) (fun _ => 1 / 10) /\
  one_each 2 (vector 2 (fun _ => 1 / 10)) /\ one_each 2 (o_r_star o) /\
  is_vector 3 (vector 3 INR) /\ (forall m, (m < 3)%nat -> aget (vector 3 INR) (at_time m) = Fin (INR m)) /\
  is_vector 3 (vector 3 (fun m => 2 * 5 - INR m)) /\ (forall m, (m < 3)%nat -> aget (vector 3 (fun m => 2 * 5 - INR m)) (at_time m) = Fin (2 * 5 - INR m)) /\
  opt_exposures 3 (one_texp (Some (1 / 4))) (fun _ => 1 / 4) /\ even_rule (one_texp (Some (1 / 4))) 7 2.
Proof. exact back_example. Qed.
Example C85_circular_example : exists os o, consts_ok ek /\ system ek 2 (ex_full_sys 2 ex_bs 2 1 1 (1 / 2)) (fun j => ex_full_args (ex_bs j) 2 1 1 (1 / 2)) os /\
  kep_init ek (ex_full_sys 2 ex_bs 2 1 1 (1 / 2)) = Ok o /\
  (forall j, (j < 2)%nat -> o_ecc (os j) = None /\ (exists z : Z, 2 = o_t0 (os j) + IZR z * (o_period (os j) / 2)) /\ (exists z : Z, 7 = o_t0 (os j) + IZR z * (o_period (os j) / 2)) /\
     slow ek (os j) /\ o_sin_incl (os j) <> 0) /\
  is_vector 3 (vector 3 (fun m => 2 + INR m)) /\ (forall m, (m < 3)%nat -> aget (vector 3 (fun m => 2 + INR m)) (at_time m) = Fin (2 + INR m)) /\
  is_vector 3 (vector 3 (fun m => 2 - INR m)) /\ (forall m, (m < 3)%nat -> aget (vector 3 (fun m => 2 - INR m)) (at_time m) = Fin (2 - INR m)) /\
  batch 2 (ex_full_sys 2 ex_bs (2 * 5 - 2) 1 1 (1 / 2)) (fun j => backwards (ex_full_args (ex_bs j) 2 1 1 (1 / 2)) (2 * 5 - o_t0 (os j))).
Proof. exact circular_example. Qed.
