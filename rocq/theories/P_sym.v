(** * Symmetries of orbits and light curves: properties C80 to C83 *)
From Coq Require Import Reals List Bool Arith ZArith.
From Verif Require Import Num CoreOps Inst CoreFlux M_units M_kepler M_fin M_tensor M_simple M_ttv M_limbdark M_secondary
  Spec_orbit Spec_params Spec_array Spec_light Spec_secondary Spec_delay Spec_sym L_node L_clock L_mirror L_scale Ex_orbit Ex_system Ex_sym.
Import ListNotations.
Open Scope R_scope.

(** ** C80: the longitude of the ascending node *)
(** the node decides nothing about which arguments are accepted *)
Theorem C80_errors : forall {T B} {N : Num T B} k (x : kargs T) w, 
  (forall o, kep_init k x = Ok o -> exists o', kep_init k (set_Omega x w) = Ok o') /\ (forall e, kep_init k x = Err e -> kep_init k (set_Omega x w) = Err e).
Proof. exact (@node_errors). Qed.
Print Assumptions C80_errors.
(** it rotates the sky: positions with any parallax and light delay, velocities
    and accelerations of all bodies; radial velocities stay *)
Theorem C80_sky : forall k (x : kargs R) o o' w, kep_init k (set_Omega x None) = Ok o -> kep_init k (set_Omega x (Some w)) = Ok o' ->
  forall t, (forall b par ld, pos k o' b t par ld = turn w (pos k o b t par ld)) /\
    (forall b, vel o' b t = turn w (vel o b t)) /\ (forall b, acc o' b t = turn w (acc o b t)) /\
    (forall K u, get_radial_velocity k o' (kep_warp o') t K u = get_radial_velocity k o (kep_warp o) t K u).
Proof. exact node_sky. Qed.
Print Assumptions C80_sky.
(** separations stay and position angles grow by it *)
Theorem C80_angles : forall k (x : kargs R) o o' w, kep_init k (set_Omega x None) = Ok o -> kep_init k (set_Omega x (Some w)) = Ok o' ->
  forall t par ld,
  let '(rho, th) := get_relative_angles k o (kep_warp o) t par ld in
  let '(rho', th') := get_relative_angles k o' (kep_warp o') t par ld in
  rho' = rho /\ rho * cos th' = rho * cos (th + w) /\ rho * sin th' = rho * sin (th + w).
Proof. exact node_angles. Qed.
Print Assumptions C80_angles.
(** in_transit does not depend on it *)
Theorem C80_in_transit : forall k (x : kargs tens) o w o', kep_init k x = Ok o -> kep_init k (set_Omega x w) = Ok o' ->
  forall cp t r texp ld, oa_in_transit (kep_api k cp o') t r texp ld = oa_in_transit (kep_api k cp o) t r texp ld.
Proof. exact node_in_transit. Qed.
Print Assumptions C80_in_transit.
(** nor do light curves *)
Theorem C80_light : forall k n (x : kargs tens) xs os o w ws, consts_ok k -> system k n x xs os -> kep_init k x = Ok o -> opt_values n w ws ->
  exists o', kep_init k (set_Omega x w) = Ok o' /\
  forall u1 u2 cp r rs N t ts texp es os' order use ld,
  disk_flux u1 u2 <> 0 -> elements n r rs -> is_vector N t -> (forall m, (m < N)%nat -> aget t (at_time m) = Fin (ts m)) -> opt_exposures N texp es ->
  (ld = true -> forall j, (j < n)%nat -> slow k (os j)) ->
  same_light n N
    (get_light_curve (ld_init (Fin u1) (Fin u2)) (Some (kep_api k cp o)) (Some r) (Some t) texp os' order use ld)
    (get_light_curve (ld_init (Fin u1) (Fin u2)) (Some (kep_api k cp o')) (Some r) (Some t) texp os' order use ld).
Proof. exact node_light. Qed.
Print Assumptions C80_light.
(** nor do secondary eclipses *)
Theorem C80_secondary : forall k n (x : kargs tens) xs os o w ws, consts_ok k -> system k n x xs os -> kep_init k x = Ok o -> opt_values n w ws ->
  exists o', kep_init k (set_Omega x w) = Ok o' /\
  forall u1 u2 v1 v2 s ss cp r rs N t ts texp es os' order use ld,
  disk_flux u1 u2 <> 0 -> disk_flux v1 v2 <> 0 -> planet_values n r rs -> (forall j, (j < n)%nat -> 0 < rs j) -> one_each n r -> one_each n (o_r_star o) ->
  planet_values n s ss -> (forall j, (j < n)%nat -> 0 <= ss j) ->
  is_vector N t -> (forall m, (m < N)%nat -> aget t (at_time m) = Fin (ts m)) -> opt_exposures N texp es ->
  (ld = true -> forall j, (j < n)%nat -> slow k (os j)) ->
  let S := {| se_primary := ld_init (Fin u1) (Fin u2); se_secondary := ld_init (Fin v1) (Fin v2); se_ratio := s |} in
  same_light n N (secondary_light_curve k cp S o r (Some t) texp os' order use ld) (secondary_light_curve k cp S o' r (Some t) texp os' order use ld).
Proof. exact node_secondary. Qed.
Print Assumptions C80_secondary.

(** ** C81: mirror images *)
(** the mirror image is accepted exactly when the orbit is *)
Theorem C81_errors : forall k (x : kargs R), no_ecc_duration x -> (forall o, kep_init k x = Ok o -> exists o', kep_init k (mirror x) = Ok o') /\ (forall e, kep_init k x = Err e -> kep_init k (mirror x) = Err e).
Proof. exact mirror_errors. Qed.
Print Assumptions C81_errors.
(** only b and the inclination differ *)
Theorem C81_elements : forall k (x : kargs R) o o', no_ecc_duration x -> kep_init k x = Ok o -> kep_init k (mirror x) = Ok o' ->
  o_b o' = - o_b o /\ o_incl o' = PI - o_incl o /\ o_cos_incl o' = - o_cos_incl o /\ o_a o' = o_a o /\ o_period o' = o_period o /\
  o_r_star o' = o_r_star o /\ o_m_star o' = o_m_star o /\ o_rho_star o' = o_rho_star o /\ o_m_planet o' = o_m_planet o /\ o_t0 o' = o_t0 o /\ o_tper o' = o_tper o.
Proof. exact mirror_elements. Qed.
Print Assumptions C81_elements.
(** the sky is reflected at the line of nodes; the line of sight stays *)
Theorem C81_sky : forall k (x : kargs R) o o', no_ecc_duration x -> kep_init k x = Ok o -> kep_init k (mirror x) = Ok o' ->
  forall t, (forall b par ld, pos k o' b t par ld = across (node_angle x) (pos k o b t par ld)) /\
    (forall b, vel o' b t = across (node_angle x) (vel o b t)) /\ (forall b, acc o' b t = across (node_angle x) (acc o b t)) /\
    (forall K u, get_radial_velocity k o' (kep_warp o') t K u = get_radial_velocity k o (kep_warp o) t K u).
Proof. exact mirror_sky. Qed.
Print Assumptions C81_sky.
(** in_transit is the same *)
Theorem C81_in_transit : forall k n x xs os o x', consts_ok k -> system k n x xs os -> kep_init k x = Ok o -> batch n x' (fun j => mirror (xs j)) ->
  exists o', kep_init k x' = Ok o' /\
  forall cp N t ts r rs te es ld,
  even_solver cp \/ (forall j, (j < n)%nat -> ka_ecc (xs j) = None) ->
  is_vector N t -> (forall m, (m < N)%nat -> aget t (at_time m) = Fin (ts m)) ->
  planet_values n r rs -> opt_values n te es ->
  oa_in_transit (kep_api k (lift_cp cp) o') t r te ld = oa_in_transit (kep_api k (lift_cp cp) o) t r te ld.
Proof. exact mirror_in_transit. Qed.
Print Assumptions C81_in_transit.
(** light curves are the same *)
Theorem C81_light : forall k n x xs os o x', consts_ok k -> system k n x xs os -> kep_init k x = Ok o -> batch n x' (fun j => mirror (xs j)) ->
  exists o', kep_init k x' = Ok o' /\
  forall u1 u2 cp N t ts r rs texp es osam order use ld,
  even_solver cp \/ (forall j, (j < n)%nat -> ka_ecc (xs j) = None) \/ use = Some false \/ ld = true ->
  is_vector N t -> (forall m, (m < N)%nat -> aget t (at_time m) = Fin (ts m)) ->
  disk_flux u1 u2 <> 0 -> elements n r rs -> opt_exposures N texp es ->
  (ld = true -> forall j, (j < n)%nat -> slow k (os j)) -> (use = Some false \/ ld = true \/ (exists e, texp = one_texp e)) ->
  same_light n N
    (get_light_curve (ld_init (Fin u1) (Fin u2)) (Some (kep_api k (lift_cp cp) o)) (Some r) (Some t) texp osam order use ld)
    (get_light_curve (ld_init (Fin u1) (Fin u2)) (Some (kep_api k (lift_cp cp) o')) (Some r) (Some t) texp osam order use ld).
Proof. exact mirror_light. Qed.
Print Assumptions C81_light.
(** secondary eclipses are the same *)
Theorem C81_secondary : forall k n x xs os o x', consts_ok k -> system k n x xs os -> kep_init k x = Ok o -> batch n x' (fun j => mirror (xs j)) ->
  exists o', kep_init k x' = Ok o' /\
  forall u1 u2 v1 v2 s ss cp r rs N t ts texp es osam order use ld,
  even_solver cp \/ (forall j, (j < n)%nat -> ka_ecc (xs j) = None) \/ use = Some false \/ ld = true ->
  disk_flux u1 u2 <> 0 -> disk_flux v1 v2 <> 0 -> planet_values n r rs -> (forall j, (j < n)%nat -> 0 < rs j) -> one_each n r -> one_each n (o_r_star o) -> one_each n (o_r_star o') ->
  planet_values n s ss -> (forall j, (j < n)%nat -> 0 <= ss j) ->
  is_vector N t -> (forall m, (m < N)%nat -> aget t (at_time m) = Fin (ts m)) -> opt_exposures N texp es ->
  (ld = true -> forall j, (j < n)%nat -> slow k (os j)) -> (use = Some false \/ ld = true \/ (exists e, texp = one_texp e)) ->
  let S := {| se_primary := ld_init (Fin u1) (Fin u2); se_secondary := ld_init (Fin v1) (Fin v2); se_ratio := s |} in
  same_light n N (secondary_light_curve k (lift_cp cp) S o r (Some t) texp osam order use ld) (secondary_light_curve k (lift_cp cp) S o' r (Some t) texp osam order use ld).
Proof. exact mirror_secondary. Qed.
Print Assumptions C81_secondary.

(** ** C82: the origin of time *)
(** shifting all times changes nothing about which arguments are accepted *)
Theorem C82_errors : forall k (x : kargs R) d, (forall o, kep_init k x = Ok o -> exists o', kep_init k (later x d) = Ok o') /\ (forall e, kep_init k x = Err e -> kep_init k (later x d) = Err e).
Proof. exact later_errors. Qed.
Print Assumptions C82_errors.
(** everything happens d later *)
Theorem C82_motion : forall k (x : kargs R) o o' d, kep_init k x = Ok o -> kep_init k (later x d) = Ok o' ->
  o_t0 o' = o_t0 o + d /\ o_tper o' = o_tper o + d /\
  forall t, (forall b par ld, pos k o' b (t + d) par ld = pos k o b t par ld) /\
    (forall b, vel o' b (t + d) = vel o b t) /\ (forall b, acc o' b (t + d) = acc o b t) /\
    (forall par ld, get_relative_angles k o' (kep_warp o') (t + d) par ld = get_relative_angles k o (kep_warp o) t par ld) /\
    (forall K u, get_radial_velocity k o' (kep_warp o') (t + d) K u = get_radial_velocity k o (kep_warp o) t K u).
Proof. exact later_motion. Qed.
Print Assumptions C82_motion.
(** also in_transit: the indices of the shifted times are the same *)
Theorem C82_in_transit : forall k n x xs os o d x', consts_ok k -> system k n x xs os -> kep_init k x = Ok o -> batch n x' (fun j => later (xs j) d) ->
  exists o', kep_init k x' = Ok o' /\
  forall cp N t t' ts r rs te es ld,
  is_vector N t -> (forall m, (m < N)%nat -> aget t (at_time m) = Fin (ts m)) ->
  is_vector N t' -> (forall m, (m < N)%nat -> aget t' (at_time m) = Fin (ts m + d)) ->
  planet_values n r rs -> opt_values n te es ->
  oa_in_transit (kep_api k (lift_cp cp) o') t' r te ld = oa_in_transit (kep_api k (lift_cp cp) o) t r te ld.
Proof. exact later_in_transit. Qed.
Print Assumptions C82_in_transit.
(** and light curves at the shifted times *)
Theorem C82_light : forall k n x xs os o d x', consts_ok k -> system k n x xs os -> kep_init k x = Ok o -> batch n x' (fun j => later (xs j) d) ->
  exists o', kep_init k x' = Ok o' /\
  forall u1 u2 cp N t t' ts r rs texp es osam order use ld,
  is_vector N t -> (forall m, (m < N)%nat -> aget t (at_time m) = Fin (ts m)) ->
  is_vector N t' -> (forall m, (m < N)%nat -> aget t' (at_time m) = Fin (ts m + d)) ->
  disk_flux u1 u2 <> 0 -> elements n r rs -> opt_exposures N texp es ->
  (ld = true -> forall j, (j < n)%nat -> slow k (os j)) -> (use = Some false \/ ld = true \/ (exists e, texp = one_texp e)) ->
  same_light n N
    (get_light_curve (ld_init (Fin u1) (Fin u2)) (Some (kep_api k (lift_cp cp) o)) (Some r) (Some t) texp osam order use ld)
    (get_light_curve (ld_init (Fin u1) (Fin u2)) (Some (kep_api k (lift_cp cp) o')) (Some r) (Some t') texp osam order use ld).
Proof. exact later_light. Qed.
Print Assumptions C82_light.
(** and secondary eclipses *)
Theorem C82_secondary : forall k n x xs os o d x', consts_ok k -> system k n x xs os -> kep_init k x = Ok o -> batch n x' (fun j => later (xs j) d) ->
  exists o', kep_init k x' = Ok o' /\
  forall u1 u2 v1 v2 s ss cp r rs N t t' ts texp es osam order use ld,
  disk_flux u1 u2 <> 0 -> disk_flux v1 v2 <> 0 -> planet_values n r rs -> (forall j, (j < n)%nat -> 0 < rs j) -> one_each n r -> one_each n (o_r_star o) -> one_each n (o_r_star o') ->
  planet_values n s ss -> (forall j, (j < n)%nat -> 0 <= ss j) ->
  is_vector N t -> (forall m, (m < N)%nat -> aget t (at_time m) = Fin (ts m)) ->
  is_vector N t' -> (forall m, (m < N)%nat -> aget t' (at_time m) = Fin (ts m + d)) -> opt_exposures N texp es ->
  (ld = true -> forall j, (j < n)%nat -> slow k (os j)) -> (use = Some false \/ ld = true \/ (exists e, texp = one_texp e)) ->
  let S := {| se_primary := ld_init (Fin u1) (Fin u2); se_secondary := ld_init (Fin v1) (Fin v2); se_ratio := s |} in
  same_light n N (secondary_light_curve k (lift_cp cp) S o r (Some t) texp osam order use ld) (secondary_light_curve k (lift_cp cp) S o' r (Some t') texp osam order use ld).
Proof. exact later_secondary. Qed.
Print Assumptions C82_secondary.

(** ** C83: systems of the same density *)
(** an enlarged system is accepted exactly when the system is *)
Theorem C83_errors : forall k s (x : kargs R), 0 < s -> sized x -> (forall o, kep_init k x = Ok o -> exists o', kep_init k (scaled s x) = Ok o') /\ (forall e, kep_init k x = Err e -> kep_init k (scaled s x) = Err e).
Proof. exact scale_errors. Qed.
Print Assumptions C83_errors.
(** lengths and masses grow; density, times and angles stay *)
Theorem C83_elements : forall k s (x : kargs R) o o', 0 < s -> sized x -> kep_init k x = Ok o -> kep_init k (scaled s x) = Ok o' ->
  o_a o' = o_a o * s /\ o_r_star o' = o_r_star o * s /\ o_m_star o' = o_m_star o * s ^ 3 /\ o_m_planet o' = o_m_planet o * s ^ 3 /\
  o_period o' = o_period o /\ o_rho_star o' = o_rho_star o /\ o_b o' = o_b o /\ o_incl o' = o_incl o /\ o_t0 o' = o_t0 o /\ o_tper o' = o_tper o.
Proof. exact scale_elements. Qed.
Print Assumptions C83_elements.
(** positions, velocities, accelerations and radial velocities grow by s *)
Theorem C83_motion : forall k s (x : kargs R) o o', 0 < s -> sized x -> kep_init k x = Ok o -> kep_init k (scaled s x) = Ok o' ->
  forall t, (forall b par, pos k o' b t par false = times s (pos k o b t par false)) /\
    (forall b, vel o' b t = times s (vel o b t)) /\ (forall b, acc o' b t = times s (acc o b t)) /\
    (forall u, get_radial_velocity k o' (kep_warp o') t None u = rmap (fun v => s * v) (get_radial_velocity k o (kep_warp o) t None u)) /\
    (forall K u, get_radial_velocity k o' (kep_warp o') t (Some K) u = get_radial_velocity k o (kep_warp o) t (Some K) u).
Proof. exact scale_motion. Qed.
Print Assumptions C83_motion.
(** in_transit for planets larger by s is the same *)
Theorem C83_in_transit : forall k s n x xs os o x', consts_ok k -> 0 < s -> (forall j, (j < n)%nat -> sized (xs j)) ->
  system k n x xs os -> kep_init k x = Ok o -> batch n x' (fun j => scaled s (xs j)) ->
  exists o', kep_init k x' = Ok o' /\
  forall cp N t ts r r' rs te es ld,
  scale_free_solver s cp \/ (forall j, (j < n)%nat -> ka_ecc (xs j) = None) ->
  is_vector N t -> (forall m, (m < N)%nat -> aget t (at_time m) = Fin (ts m)) ->
  planet_values n r rs -> planet_values n r' (fun j => rs j * s) -> opt_values n te es ->
  oa_in_transit (kep_api k (lift_cp cp) o') t r' te ld = oa_in_transit (kep_api k (lift_cp cp) o) t r te ld.
Proof. exact scale_in_transit. Qed.
Print Assumptions C83_in_transit.
(** light curves only depend on the ratios: they are the same *)
Theorem C83_light : forall k s n x xs os o x', consts_ok k -> 0 < s -> (forall j, (j < n)%nat -> sized (xs j)) ->
  system k n x xs os -> kep_init k x = Ok o -> batch n x' (fun j => scaled s (xs j)) ->
  exists o', kep_init k x' = Ok o' /\
  forall u1 u2 cp N t ts r r' rs texp es osam order use,
  scale_free_solver s cp \/ (forall j, (j < n)%nat -> ka_ecc (xs j) = None) \/ use = Some false ->
  is_vector N t -> (forall m, (m < N)%nat -> aget t (at_time m) = Fin (ts m)) ->
  disk_flux u1 u2 <> 0 -> elements n r rs -> elements n r' (fun j => rs j * s) -> opt_exposures N texp es -> (use = Some false \/ (exists e, texp = one_texp e)) ->
  same_light n N
    (get_light_curve (ld_init (Fin u1) (Fin u2)) (Some (kep_api k (lift_cp cp) o)) (Some r) (Some t) texp osam order use false)
    (get_light_curve (ld_init (Fin u1) (Fin u2)) (Some (kep_api k (lift_cp cp) o')) (Some r') (Some t) texp osam order use false).
Proof. exact scale_light. Qed.
Print Assumptions C83_light.
(** secondary eclipses are the same *)
Theorem C83_secondary : forall k s n x xs os o x', consts_ok k -> 0 < s -> (forall j, (j < n)%nat -> sized (xs j)) ->
  system k n x xs os -> kep_init k x = Ok o -> batch n x' (fun j => scaled s (xs j)) ->
  exists o', kep_init k x' = Ok o' /\
  forall u1 u2 v1 v2 sb ss cp r r' rs N t ts texp es osam order use,
  scale_free_solver s cp \/ (forall j, (j < n)%nat -> ka_ecc (xs j) = None) \/ use = Some false ->
  disk_flux u1 u2 <> 0 -> disk_flux v1 v2 <> 0 -> planet_values n r rs -> planet_values n r' (fun j => rs j * s) -> (forall j, (j < n)%nat -> 0 < rs j) ->
  one_each n r -> one_each n r' -> one_each n (o_r_star o) -> one_each n (o_r_star o') ->
  planet_values n sb ss -> (forall j, (j < n)%nat -> 0 <= ss j) ->
  is_vector N t -> (forall m, (m < N)%nat -> aget t (at_time m) = Fin (ts m)) -> opt_exposures N texp es -> (use = Some false \/ (exists e, texp = one_texp e)) ->
  let S := {| se_primary := ld_init (Fin u1) (Fin u2); se_secondary := ld_init (Fin v1) (Fin v2); se_ratio := sb |} in
  same_light n N (secondary_light_curve k (lift_cp cp) S o r (Some t) texp osam order use false) (secondary_light_curve k (lift_cp cp) S o' r' (Some t) texp osam order use false).
Proof. exact scale_secondary. Qed.
Print Assumptions C83_secondary.
(** not when the size of the star is left to the default of one solar radius:
    then enlarging what is given leaves the star as it is *)
Theorem C83_default_star_refuted : exists x o o', kep_init ek x = Ok o /\ physical o /\ kep_init ek (scaled 2 x) = Ok o' /\ ~ sized x /\ o_r_star o' <> o_r_star o * 2 /\ o_rho_star o' = o_rho_star o /\ o_a o' <> o_a o * 2.
Proof. exact scale_default. Qed.
Print Assumptions C83_default_star_refuted.

(** ** cases meeting the hypotheses *)
Example C80_C83_example : exists os o, disk_flux (3 / 10) (2 / 10) <> 0 /\ consts_ok ek /\
  system ek 2 (ex_full_sys 2 ex_bs 2 1 1 (1 / 2)) (fun j => ex_full_args (ex_bs j) 2 1 1 (1 / 2)) os /\
  kep_init ek (ex_full_sys 2 ex_bs 2 1 1 (1 / 2)) = Ok o /\
  (forall j, (j < 2)%nat -> slow ek (os j) /\ no_ecc_duration (ex_full_args (ex_bs j) 2 1 1 (1 / 2)) /\ sized (ex_full_args (ex_bs j) 2 1 1 (1 / 2))) /\
  planet_values 2 (vector 2 (fun _ => 1 / 10)) (fun _ => 1 / 10) /\ elements 2 (vector 2 (fun _ => 1 / 10)) (fun _ => 1 / 10) /\
  planet_values 2 (vector 2 (fun _ => 1 / 10 * 3)) (fun _ => 1 / 10 * 3) /\ elements 2 (vector 2 (fun _ => 1 / 10 * 3)) (fun _ => 1 / 10 * 3) /\
  one_each 2 (vector 2 (fun _ => 1 / 10)) /\ one_each 2 (vector 2 (fun _ => 1 / 10 * 3)) /\ one_each 2 (o_r_star o) /\
  (forall o', kep_init ek (ex_full_sys 2 ex_bs (2 + 4) 1 1 (1 / 2)) = Ok o' -> one_each 2 (o_r_star o')) /\
  is_vector 3 (vector 3 INR) /\ (forall m, (m < 3)%nat -> aget (vector 3 INR) (at_time m) = Fin (INR m)) /\
  is_vector 3 (vector 3 (fun m => INR m + 4)) /\ (forall m, (m < 3)%nat -> aget (vector 3 (fun m => INR m + 4)) (at_time m) = Fin (INR m + 4)) /\
  opt_values 2 (Some (vector 2 INR)) INR /\
  batch 2 (ex_full_sys 2 ex_bs (2 + 4) 1 1 (1 / 2)) (fun j => later (ex_full_args (ex_bs j) 2 1 1 (1 / 2)) 4) /\
  batch 2 (ex_full_sys 2 (fun j => - ex_bs j) 2 1 1 (1 / 2)) (fun j => mirror (ex_full_args (ex_bs j) 2 1 1 (1 / 2))) /\
  batch 2 (ex_full_sys 2 ex_bs 2 (1 * 3) (1 * 3 ^ 3) (1 / 2 * 3 ^ 3)) (fun j => scaled 3 (ex_full_args (ex_bs j) 2 1 1 (1 / 2))) /\
  even_solver ex_solver /\ scale_free_solver 3 ex_solver.
Proof. exact sym_example. Qed.
Example C80_C82_eccentric_example : exists o o1 o2 o3 o4, kep_init ek ex_ecc_args = Ok o /\ physical o /\ ecc_of o = 3 / 10 /\ no_ecc_duration ex_ecc_args /\ node_angle ex_ecc_args = 7 / 10 /\
  kep_init ek (set_Omega ex_ecc_args None) = Ok o1 /\ kep_init ek (set_Omega ex_ecc_args (Some (7 / 10))) = Ok o2 /\
  kep_init ek (mirror ex_ecc_args) = Ok o3 /\ kep_init ek (later ex_ecc_args 5) = Ok o4 /\ o_t0 o4 = 2 + 5.
Proof. exact ecc_sym_example. Qed.
