(** * The depth of transits: properties C86 and C87 *)
From Coq Require Import Reals List Bool Arith ZArith.
From Verif Require Import Num CoreOps Inst CoreFlux M_units M_kepler M_fin M_tensor M_simple M_limbdark
  Spec_orbit Spec_params Spec_array Spec_simple Spec_light Spec_delay Spec_sym Spec_depth L_depth2 L_depth3 L_depth4 L_simple2 Ex_orbit Ex_system Ex_sym Ex_depth.
Import ListNotations.
Open Scope R_scope.

(** ** C86 *)
(** a star of uniform brightness: the depth is the area common to the two disks over the area of the star *)
Theorem C86_uniform : forall b r los i bi ri li, aget b i = Fin bi -> aget r i = Fin ri -> aget los i = Fin li -> 0 < li ->
  exists v, aget (compute_light_curve (ld_init (Fin 0) (Fin 0)) b r (Some los)) i = Fin v /\
    (Rabs bi + Rabs ri <= 1 -> v = - (ri * ri)) /\ (bi <> 0 -> ri <> 0 -> v = - (common_area (Rabs bi) (Rabs ri) / PI)).
Proof. exact flux_uniform. Qed.
Print Assumptions C86_uniform.
(** in general the depth lies between the least and the greatest brightness behind the planet, times the area of the planet, over the flux of the star *)
Theorem C86_bounds : forall u1 u2 b r los i bi ri li, 0 < disk_flux u1 u2 ->
  aget b i = Fin bi -> aget r i = Fin ri -> aget los i = Fin li -> 0 < li ->
  exists v, aget (compute_light_curve (ld_init (Fin u1) (Fin u2)) b r (Some los)) i = Fin v /\
    (forall M, 0 <= M -> (forall rho, 0 <= rho <= 1 -> Rabs (rho - Rabs bi) <= Rabs ri -> brightness u1 u2 rho <= M) -> - (M * (PI * (ri * ri)) / disk_flux u1 u2) <= v) /\
    (forall m, Rabs bi + Rabs ri <= 1 -> (forall rho, 0 <= rho <= 1 -> Rabs (rho - Rabs bi) <= Rabs ri -> m <= brightness u1 u2 rho) -> v <= - (m * (PI * (ri * ri)) / disk_flux u1 u2)).
Proof. exact flux_depth. Qed.
Print Assumptions C86_bounds.
(** the approximate depth inverted by get_ror_from_approx_transit_depth, at the outer and at the inner edge of the planet, encloses the depth *)
Theorem C86_approx : forall u1 u2 b r los i bi ri li, 0 < disk_flux u1 u2 -> bright u1 u2 -> darkening u1 u2 ->
  aget b i = Fin bi -> aget r i = Fin ri -> aget los i = Fin li -> 0 < li -> 0 <= bi -> 0 <= ri -> bi + ri <= 1 ->
  exists v, aget (compute_light_curve (ld_init (Fin u1) (Fin u2)) b r (Some los)) i = Fin v /\
    depth u1 u2 (bi + ri) ri <= - v <= depth u1 u2 (Rmax 0 (bi - ri)) ri.
Proof. exact flux_approx. Qed.
Print Assumptions C86_approx.
(** light curves of a uniform star have a flat bottom of depth (r / r_star)^2, for any orbit *)
Theorem C86_flat : forall A ld n P rst r rs N t ts texp es osam order,
  answers A ld n P -> planet_numbers n (oa_r_star A) rst -> (forall j, (j < n)%nat -> 0 < rst j) ->
  elements n r rs -> (forall j, (j < n)%nat -> 0 <= rs j) ->
  is_vector N t -> (forall m, (m < N)%nat -> aget t (at_time m) = Fin (ts m)) -> opt_exposures N texp es -> (forall m, (m < N)%nat -> 0 <= es m) ->
  (texp <> None -> exists nodes weights, stencil osam order = Ok (nodes, weights)) ->
  exists X f, get_light_curve (ld_init (Fin 0) (Fin 0)) (Some A) (Some r) (Some t) texp osam order (Some false) ld = Ok X /\ light_table n N X f /\
  forall m j, (m < N)%nat -> (j < n)%nat -> (forall s, Rabs (s - ts m) <= es m / 2 -> 0 < vz (P j s) /\ apart (P j s) + rs j <= rst j) ->
    f m j = - (rs j / rst j * (rs j / rst j)).
Proof. exact light_flat. Qed.
Print Assumptions C86_flat.
(** a larger planet makes a deeper light curve, for any orbit *)
Theorem C86_radius : forall u1 u2 A ld n P rst r rs r' rs' N t ts texp es osam order,
  disk_flux u1 u2 <> 0 -> bright u1 u2 -> answers A ld n P -> planet_numbers n (oa_r_star A) rst -> (forall j, (j < n)%nat -> 0 < rst j) ->
  elements n r rs -> elements n r' rs' -> (forall j, (j < n)%nat -> 0 <= rs j <= rs' j) ->
  is_vector N t -> (forall m, (m < N)%nat -> aget t (at_time m) = Fin (ts m)) -> opt_exposures N texp es -> (texp <> None -> exists nodes weights, stencil osam order = Ok (nodes, weights)) ->
  deeper n N (get_light_curve (ld_init (Fin u1) (Fin u2)) (Some A) (Some r) (Some t) texp osam order (Some false) ld)
             (get_light_curve (ld_init (Fin u1) (Fin u2)) (Some A) (Some r') (Some t) texp osam order (Some false) ld).
Proof. exact light_radius. Qed.
Print Assumptions C86_radius.
Example C86_example : 0 < disk_flux (3 / 10) (2 / 10) /\ bright (3 / 10) (2 / 10) /\ darkening (3 / 10) (2 / 10) /\ 0 <= 1 / 2 /\ 0 <= 1 / 10 /\ 1 / 2 + 1 / 10 <= 1 /\ 0 < 1.
Proof. exact dark_example. Qed.

(** ** C87 *)
(** the quadratic laws that are nowhere brighter towards the limb *)
Theorem C87_darkening : forall u1 u2, darkening u1 u2 <-> 0 <= u1 /\ 0 <= u1 + 2 * u2.
Proof. exact darkening_iff. Qed.
Print Assumptions C87_darkening.
(** entry by entry: larger planets hide more light; planets nearer the centre of a limb-darkened star hide more light *)
Theorem C87_entry : forall u1 u2 b b' r r' los los' i bi bi' ri ri' li li', disk_flux u1 u2 <> 0 ->
  aget b i = Fin bi -> aget r i = Fin ri -> aget los i = Fin li -> aget b' i = Fin bi' -> aget r' i = Fin ri' -> aget los' i = Fin li' ->
  exists v v', aget (compute_light_curve (ld_init (Fin u1) (Fin u2)) b r (Some los)) i = Fin v /\ aget (compute_light_curve (ld_init (Fin u1) (Fin u2)) b' r' (Some los')) i = Fin v' /\
    (bright u1 u2 -> bi = bi' -> li = li' -> Rabs ri <= Rabs ri' -> v' <= v) /\
    (bright u1 u2 -> darkening u1 u2 -> ri = ri' -> Rabs bi <= Rabs bi' -> 0 < li -> v <= v').
Proof. exact fluxes. Qed.
Print Assumptions C87_entry.
(** light curves of any orbit *)
Theorem C87_nearer : forall u1 u2 A ld n P rst r rs N t ts osam order,
  disk_flux u1 u2 <> 0 -> bright u1 u2 -> darkening u1 u2 -> answers A ld n P -> planet_numbers n (oa_r_star A) rst -> (forall j, (j < n)%nat -> 0 < rst j) ->
  elements n r rs -> is_vector N t -> (forall m, (m < N)%nat -> aget t (at_time m) = Fin (ts m)) ->
  exists X f, get_light_curve (ld_init (Fin u1) (Fin u2)) (Some A) (Some r) (Some t) None osam order (Some false) ld = Ok X /\ light_table n N X f /\
  forall m m' j, (m < N)%nat -> (m' < N)%nat -> (j < n)%nat -> 0 < vz (P j (ts m)) -> apart (P j (ts m)) <= apart (P j (ts m')) -> f m j <= f m' j.
Proof. exact light_nearer. Qed.
Print Assumptions C87_nearer.
(** a circular orbit is deepest in the middle of the transit, gets shallower on both sides and does so alike in every transit *)
Theorem C87_circular : forall u1 u2 k n (x : kargs tens) xs os o cp r rs N t ts osam order,
  disk_flux u1 u2 <> 0 -> bright u1 u2 -> darkening u1 u2 -> consts_ok k -> system k n x xs os -> kep_init k x = Ok o ->
  (forall j, (j < n)%nat -> o_ecc (os j) = None /\ 0 <= o_sin_incl (os j)) ->
  elements n r rs -> is_vector N t -> (forall m, (m < N)%nat -> aget t (at_time m) = Fin (ts m)) ->
  exists X f, get_light_curve (ld_init (Fin u1) (Fin u2)) (Some (kep_api k cp o)) (Some r) (Some t) None osam order (Some false) false = Ok X /\ light_table n N X f /\
  forall m m' j (z z' : Z), (m < N)%nat -> (m' < N)%nat -> (j < n)%nat ->
    Rabs (ts m - (o_t0 (os j) + IZR z * o_period (os j))) <= Rabs (ts m' - (o_t0 (os j) + IZR z' * o_period (os j))) <= o_period (os j) / 2 -> f m j <= f m' j.
Proof. exact circular_nearer. Qed.
Print Assumptions C87_circular.
(** so is SimpleTransitOrbit *)
Theorem C87_simple : forall u1 u2 n x xs r rs N t ts osam order,
  disk_flux u1 u2 <> 0 -> bright u1 u2 -> darkening u1 u2 -> simple_system n x xs -> (forall j, (j < n)%nat -> simple_ok (xs j)) ->
  elements n r rs -> is_vector N t -> (forall m, (m < N)%nat -> aget t (at_time m) = Fin (ts m)) ->
  exists X f, get_light_curve (ld_init (Fin u1) (Fin u2)) (Some (simple_api (simple_init x))) (Some r) (Some t) None osam order (Some false) false = Ok X /\ light_table n N X f /\
  forall m m' j (z z' : Z), (m < N)%nat -> (m' < N)%nat -> (j < n)%nat ->
    Rabs (ts m - smid (xs j) z) <= Rabs (ts m' - smid (xs j) z') <= sa_period (xs j) / 2 -> f m j <= f m' j.
Proof. exact simple_nearer. Qed.
Print Assumptions C87_simple.
(** at a smaller impact parameter a circular orbit is deeper at every time, with or without exposures *)
Theorem C87_impact : forall u1 u2 k n (x x' : kargs tens) xs os os' o o' bs bs' cp r rs N t ts texp es osam order,
  disk_flux u1 u2 <> 0 -> bright u1 u2 -> darkening u1 u2 -> consts_ok k ->
  (forall j, (j < n)%nat -> ka_ecc (xs j) = None /\ ka_duration (xs j) = None /\ Rabs (bs' j) <= Rabs (bs j)) ->
  system k n x (fun j => set_incl (xs j) (Some (bs j)) None) os -> kep_init k x = Ok o -> system k n x' (fun j => set_incl (xs j) (Some (bs' j)) None) os' -> kep_init k x' = Ok o' ->
  elements n r rs -> is_vector N t -> (forall m, (m < N)%nat -> aget t (at_time m) = Fin (ts m)) -> opt_exposures N texp es -> (texp <> None -> exists nodes weights, stencil osam order = Ok (nodes, weights)) ->
  deeper n N (get_light_curve (ld_init (Fin u1) (Fin u2)) (Some (kep_api k cp o)) (Some r) (Some t) texp osam order (Some false) false)
             (get_light_curve (ld_init (Fin u1) (Fin u2)) (Some (kep_api k cp o')) (Some r) (Some t) texp osam order (Some false) false).
Proof. exact impact_deeper. Qed.
Print Assumptions C87_impact.
(** not if the limb is brighter *)
Theorem C87_limb_bright_refuted : exists b b' r los : tens, exists v v', bright (-1) 0 /\ 0 < disk_flux (-1) 0 /\
  aget b ix0 = Fin 0 /\ aget b' ix0 = Fin (1 / 2) /\ aget r ix0 = Fin (1 / 10) /\ aget los ix0 = Fin 1 /\
  aget (compute_light_curve (ld_init (Fin (-1)) (Fin 0)) b r (Some los)) ix0 = Fin v /\ aget (compute_light_curve (ld_init (Fin (-1)) (Fin 0)) b' r (Some los)) ix0 = Fin v' /\ v' < v.
Proof. exact limb_bright_flux. Qed.
Print Assumptions C87_limb_bright_refuted.
Example C87_example : exists os o os' o', consts_ok ek /\
  system ek 2 (ex_full_sys 2 ex_low 2 1 1 (1 / 2)) (fun j => set_incl (ex_full_args 0 2 1 1 (1 / 2)) (Some (ex_low j)) None) os /\ kep_init ek (ex_full_sys 2 ex_low 2 1 1 (1 / 2)) = Ok o /\
  system ek 2 (ex_full_sys 2 ex_high 2 1 1 (1 / 2)) (fun j => set_incl (ex_full_args 0 2 1 1 (1 / 2)) (Some (ex_high j)) None) os' /\ kep_init ek (ex_full_sys 2 ex_high 2 1 1 (1 / 2)) = Ok o' /\
  (forall j, (j < 2)%nat -> ka_ecc (ex_full_args 0 2 1 1 (1 / 2)) = None /\ ka_duration (ex_full_args 0 2 1 1 (1 / 2)) = None /\ Rabs (ex_low j) <= Rabs (ex_high j)) /\
  (forall j, (j < 2)%nat -> o_ecc (os j) = None /\ 0 <= o_sin_incl (os j) /\ 0 < o_r_star (os j)) /\
  (forall cp, answers (kep_api ek cp o) false 2 (fun j s => pos ek (os j) Relative s None false) /\ planet_numbers 2 (oa_r_star (kep_api ek cp o)) (fun j => o_r_star (os j))) /\
  elements 2 (vector 2 (fun _ => 1 / 10)) (fun _ => 1 / 10) /\ elements 2 (vector 2 (fun _ => 2 / 10)) (fun _ => 2 / 10) /\
  is_vector 3 (vector 3 (fun m => 2 + INR m / 10)) /\ (forall m, (m < 3)%nat -> aget (vector 3 (fun m => 2 + INR m / 10)) (at_time m) = Fin (2 + INR m / 10)) /\
  opt_exposures 3 (one_texp (Some (1 / 4))) (fun _ => 1 / 4) /\ (exists nodes weights, stencil 7 2 = Ok (nodes, weights)) /\
  (forall j, (j < 2)%nat -> Rabs (2 + INR 1 / 10 - (o_t0 (os j) + IZR 0 * o_period (os j))) <= Rabs (2 + INR 2 / 10 - (o_t0 (os j) + IZR 0 * o_period (os j))) <= o_period (os j) / 2) /\
  (forall j s, (j < 2)%nat -> Rabs (s - (2 + INR 0 / 10)) <= 0 / 2 -> 0 < vz (pos ek (os j) Relative s None false) /\ apart (pos ek (os j) Relative s None false) + 1 / 10 <= o_r_star (os j)).
Proof. exact depth_example. Qed.
Example C87_example_simple : simple_system 2 (ex_simples (fun j => INR j / 2)) (fun j => ex_simple (INR j / 2)) /\ (forall j, (j < 2)%nat -> simple_ok (ex_simple (INR j / 2))) /\
  (forall j, (j < 2)%nat -> Rabs (smid (ex_simple (INR j / 2)) 3 + 1 / 10 - smid (ex_simple (INR j / 2)) 3) <= Rabs (smid (ex_simple (INR j / 2)) 5 - 2 / 10 - smid (ex_simple (INR j / 2)) 5) <= sa_period (ex_simple (INR j / 2)) / 2).
Proof. exact simple_depth_example. Qed.
