(** * Light curves change steadily: property C90 *)
From Coq Require Import Reals List ZArith.
From Verif Require Import Num CoreOps Inst CoreFlux M_units M_kepler M_fin M_tensor M_simple M_ttv M_limbdark Spec_orbit Spec_params Spec_array Spec_simple Spec_light Spec_delay Spec_lip
  L_lip2 L_lip3 L_simple2 L_light8 Ex_orbit Ex_system Ex_sym Ex_lip.
Open Scope R_scope.

(** in front of the star the flux changes at most in proportion to the shift of the planet and to the area *)
Theorem C90_flux : forall u1 u2 b b' r r' los los' i bi bi' ri ri' li li', disk_flux u1 u2 <> 0 ->
  aget b i = Fin bi -> aget r i = Fin ri -> aget los i = Fin li -> aget b' i = Fin bi' -> aget r' i = Fin ri' -> aget los' i = Fin li' ->
  0 < li -> 0 < li' ->
  exists v v', aget (compute_light_curve (ld_init (Fin u1) (Fin u2)) b r (Some los)) i = Fin v /\ aget (compute_light_curve (ld_init (Fin u1) (Fin u2)) b' r' (Some los')) i = Fin v' /\
    Rabs (v - v') <= weight u1 u2 * (4 * Rabs ri * Rabs (Rabs bi - Rabs bi') + Rabs (ri * ri - ri' * ri')).
Proof. exact flux_steady. Qed.
Print Assumptions C90_flux.

(** two light curves of a system at different times differ at most in proportion to the differences of the times *)
Theorem C90_kepler : forall u1 u2 k n (x : kargs tens) xs os o cp r rs N t ts t' ts' texp es osam order,
  disk_flux u1 u2 <> 0 -> consts_ok k -> system k n x xs os -> kep_init k x = Ok o ->
  elements n r rs -> (forall j, (j < n)%nat -> 0 <= rs j /\ o_r_star (os j) + rs j <= o_a (os j) * (1 - ecc_of (os j))) ->
  is_vector N t -> (forall m, (m < N)%nat -> aget t (at_time m) = Fin (ts m)) ->
  is_vector N t' -> (forall m, (m < N)%nat -> aget t' (at_time m) = Fin (ts' m)) ->
  opt_exposures N texp es -> (texp <> None -> exists nodes weights, stencil osam order = Ok (nodes, weights)) ->
  close_tables n N (get_light_curve (ld_init (Fin u1) (Fin u2)) (Some (kep_api k cp o)) (Some r) (Some t) texp osam order (Some false) false)
    (get_light_curve (ld_init (Fin u1) (Fin u2)) (Some (kep_api k cp o)) (Some r) (Some t') texp osam order (Some false) false)
    (fun m j => weight u1 u2 * (4 * (rs j / o_r_star (os j)) * (peak_speed (os j) / o_r_star (os j))) * Rabs (ts m - ts' m)).
Proof. exact light_steady. Qed.
Print Assumptions C90_kepler.

(** with any orbit the light curves of two radii differ at most in proportion to the areas *)
Theorem C90_radius : forall u1 u2 A ld n P rst r rs r' rs' N t ts texp es osam order,
  disk_flux u1 u2 <> 0 -> answers A ld n P -> planet_numbers n (oa_r_star A) rst -> (forall j, (j < n)%nat -> 0 < rst j) ->
  elements n r rs -> elements n r' rs' ->
  is_vector N t -> (forall m, (m < N)%nat -> aget t (at_time m) = Fin (ts m)) -> opt_exposures N texp es -> (texp <> None -> exists nodes weights, stencil osam order = Ok (nodes, weights)) ->
  close_tables n N (get_light_curve (ld_init (Fin u1) (Fin u2)) (Some A) (Some r) (Some t) texp osam order (Some false) ld)
    (get_light_curve (ld_init (Fin u1) (Fin u2)) (Some A) (Some r') (Some t) texp osam order (Some false) ld)
    (fun m j => weight u1 u2 * Rabs ((rs j / rst j) ^ 2 - (rs' j / rst j) ^ 2)).
Proof. exact light_steady_r. Qed.
Print Assumptions C90_radius.

(** SimpleTransitOrbit, for planets not larger than the radius ratio it was given *)
Theorem C90_simple : forall u1 u2 n x xs r rs N t ts t' ts' texp es osam order,
  disk_flux u1 u2 <> 0 -> simple_system n x xs -> (forall j, (j < n)%nat -> simple_ok (xs j)) ->
  elements n r rs -> (forall j, (j < n)%nat -> 0 <= rs j <= dflt 0 (sa_ror (xs j)) * dflt 1 (sa_r_star (xs j))) ->
  is_vector N t -> (forall m, (m < N)%nat -> aget t (at_time m) = Fin (ts m)) ->
  is_vector N t' -> (forall m, (m < N)%nat -> aget t' (at_time m) = Fin (ts' m)) ->
  opt_exposures N texp es -> (texp <> None -> exists nodes weights, stencil osam order = Ok (nodes, weights)) ->
  close_tables n N (get_light_curve (ld_init (Fin u1) (Fin u2)) (Some (simple_api (simple_init x))) (Some r) (Some t) texp osam order (Some false) false)
    (get_light_curve (ld_init (Fin u1) (Fin u2)) (Some (simple_api (simple_init x))) (Some r) (Some t') texp osam order (Some false) false)
    (fun m j => weight u1 u2 * (4 * (rs j / dflt 1 (sa_r_star (xs j))) * (chord_speed (xs j) / dflt 1 (sa_r_star (xs j)))) * Rabs (ts m - ts' m)).
Proof. exact simple_light_steady. Qed.
Print Assumptions C90_simple.

(** for larger planets there is no such bound: the light curve jumps at the contacts *)
Theorem C90_simple_larger_refuted : ~ (forall u1 u2 n x xs r rs, disk_flux u1 u2 <> 0 -> simple_system n x xs -> (forall j, (j < n)%nat -> simple_ok (xs j)) ->
  elements n r rs -> (forall j, (j < n)%nat -> 0 <= rs j) ->
  exists C, forall N t ts t' ts', is_vector N t -> (forall m, (m < N)%nat -> aget t (at_time m) = Fin (ts m)) -> is_vector N t' -> (forall m, (m < N)%nat -> aget t' (at_time m) = Fin (ts' m)) ->
    close_tables n N (get_light_curve (ld_init (Fin u1) (Fin u2)) (Some (simple_api (simple_init x))) (Some r) (Some t) None 7 0 (Some false) false)
      (get_light_curve (ld_init (Fin u1) (Fin u2)) (Some (simple_api (simple_init x))) (Some r) (Some t') None 7 0 (Some false) false) (fun m j => C * Rabs (ts m - ts' m))).
Proof. exact contact_jump. Qed.
Print Assumptions C90_simple_larger_refuted.

(** two planets, exposures of a quarter of a day, times a hundredth of a day later *)
Example C90_example : exists os o, disk_flux (3 / 10) (2 / 10) <> 0 /\ consts_ok ek /\
  system ek 2 (ex_full_sys 2 ex_bs 2 1 1 (1 / 2)) (fun j => ex_full_args (ex_bs j) 2 1 1 (1 / 2)) os /\
  kep_init ek (ex_full_sys 2 ex_bs 2 1 1 (1 / 2)) = Ok o /\
  elements 2 (vector 2 (fun _ => 1 / 10)) (fun _ => 1 / 10) /\
  (forall j, (j < 2)%nat -> 0 <= 1 / 10 /\ o_r_star (os j) + 1 / 10 <= o_a (os j) * (1 - ecc_of (os j))) /\
  is_vector 3 (vector 3 INR) /\ (forall m, (m < 3)%nat -> aget (vector 3 INR) (at_time m) = Fin (INR m)) /\
  is_vector 3 (vector 3 (fun m => INR m + 1 / 100)) /\ (forall m, (m < 3)%nat -> aget (vector 3 (fun m => INR m + 1 / 100)) (at_time m) = Fin (INR m + 1 / 100)) /\
  opt_exposures 3 (one_texp (Some (1 / 4))) (fun _ => 1 / 4) /\ exists nodes weights, stencil 7 2 = Ok (nodes, weights).
Proof. exact lip_example. Qed.
Example C90_example_simple : simple_system 2 (ex_simples (fun j => INR j / 2)) (fun j => ex_simple (INR j / 2)) /\ (forall j, (j < 2)%nat -> simple_ok (ex_simple (INR j / 2))) /\
  (forall j, (j < 2)%nat -> 0 <= 1 / 10 <= dflt 0 (sa_ror (ex_simple (INR j / 2))) * dflt 1 (sa_r_star (ex_simple (INR j / 2)))).
Proof. exact simple_lip_example. Qed.
