(** * Small changes of the parameters have small effects: property C99 *)
From Coq Require Import Reals List ZArith.
From Verif Require Import Num CoreOps Inst CoreFlux M_units M_kepler M_fin M_tensor M_limbdark M_simple M_ttv Spec_orbit Spec_params Spec_array Spec_light Spec_delay Spec_cont
  L_cont4 L_cont5 Ex_orbit Ex_system Ex_sym Ex_cont.
Open Scope R_scope.

(** when the arguments approach accepted arguments, the orbits exist and their attributes approach those of the limit *)
Theorem C99_orbit : forall k xs x o, consts_ok k -> args_tend xs x -> kep_init k x = Ok o -> physical o -> duration_fits k x o -> (ka_tper x <> None \/ sinw_of o <> -1) ->
  exists os, (forall n, kep_init k (xs n) = Ok (os n)) /\ attributes_tend os o /\ (sinw_of o <> -1 -> Un_cv (fun n => o_t0 (os n)) (o_t0 o)).
Proof. exact orbit_continuous. Qed.
Print Assumptions C99_orbit.

(** positions (in any units of parallax), velocities and accelerations, at times that approach a time *)
Theorem C99_motion : forall k xs x os o ts t pars par, consts_ok k -> args_tend xs x -> (forall n, kep_init k (xs n) = Ok (os n) /\ physical (os n)) -> kep_init k x = Ok o -> physical o ->
  duration_fits k x o -> (ka_tper x <> None \/ sinw_of o <> -1) -> Un_cv ts t -> given_tends Un_cv pars par -> forall b,
  vec_tends (fun n => pos k (os n) b (ts n) (pars n) false) (pos k o b t par false) /\ vec_tends (fun n => vel (os n) b (ts n)) (vel o b t) /\
  (moving o b -> vec_tends (fun n => acc (os n) b (ts n)) (acc o b t)).
Proof. exact motion_continuous. Qed.
Print Assumptions C99_motion.

(** radial velocities, with the given or the derived semi-amplitude *)
Theorem C99_rv : forall k xs x os o ts t Ks K u v, consts_ok k -> args_tend xs x -> (forall n, kep_init k (xs n) = Ok (os n) /\ physical (os n)) -> kep_init k x = Ok o -> physical o ->
  duration_fits k x o -> (ka_tper x <> None \/ sinw_of o <> -1) -> Un_cv ts t -> given_tends Un_cv Ks K -> get_radial_velocity k o (kep_warp o) t K u = Ok v ->
  exists vs, (forall n, get_radial_velocity k (os n) (kep_warp (os n)) (ts n) (Ks n) u = Ok (vs n)) /\ Un_cv vs v.
Proof. exact rv_continuous. Qed.
Print Assumptions C99_rv.

(** light curves of systems, when limb darkening, arguments, radii, times and exposure times all approach a limit *)
Theorem C99_light : forall u1s u1 u2s u2 k n (X : nat -> kargs tens) xs os O (x : kargs tens) ys ps o cp r rs r' rs' N t ts t' ts' texp es texp' es' osam order,
  disk_flux u1 u2 <> 0 -> (forall q, disk_flux (u1s q) (u2s q) <> 0) -> Un_cv u1s u1 -> Un_cv u2s u2 ->
  consts_ok k -> (forall q, system k n (X q) (xs q) (os q)) -> (forall q, kep_init k (X q) = Ok (O q)) -> system k n x ys ps -> kep_init k x = Ok o ->
  (forall j, (j < n)%nat -> args_tend (fun q => xs q j) (ys j) /\ (ka_tper (ys j) <> None \/ sinw_of (ps j) <> -1)) ->
  (forall q, elements n (r q) (rs q)) -> elements n r' rs' -> (forall j, (j < n)%nat -> Un_cv (fun q => rs q j) (rs' j) /\ o_r_star (ps j) + Rabs (rs' j) < o_a (ps j) * (1 - ecc_of (ps j))) ->
  (forall q, is_vector N (t q) /\ forall m, (m < N)%nat -> aget (t q) (at_time m) = Fin (ts q m)) -> is_vector N t' -> (forall m, (m < N)%nat -> aget t' (at_time m) = Fin (ts' m)) ->
  (forall m, (m < N)%nat -> Un_cv (fun q => ts q m) (ts' m)) ->
  (forall q, opt_exposures N (texp q) (es q) /\ is_none (texp q) = is_none texp') -> opt_exposures N texp' es' -> (forall m, (m < N)%nat -> Un_cv (fun q => es q m) (es' m)) ->
  (texp' <> None -> exists nodes weights, stencil osam order = Ok (nodes, weights)) ->
  tables_tend n N (fun q => get_light_curve (ld_init (Fin (u1s q)) (Fin (u2s q))) (Some (kep_api k cp (O q))) (Some (r q)) (Some (t q)) (texp q) osam order (Some false) false)
    (get_light_curve (ld_init (Fin u1) (Fin u2)) (Some (kep_api k cp o)) (Some r') (Some t') texp' osam order (Some false) false).
Proof. exact light_tends. Qed.
Print Assumptions C99_light.

(** at omega = -90 degrees with t0 given the orbit jumps: t0 changes from a transit to an occultation *)
Theorem C99_turn_refuted : ~ (forall k xs x os o t, consts_ok k -> args_tend xs x -> (forall n, kep_init k (xs n) = Ok (os n) /\ physical (os n)) -> kep_init k x = Ok o -> physical o -> no_ecc_duration x ->
  vec_tends (fun n => get_relative_position k (os n) (kep_warp (os n)) t None false) (get_relative_position k o (kep_warp o) t None false)).
Proof. exact turn_jump. Qed.
Print Assumptions C99_turn_refuted.

Example C99_example : exists os o, args_tend (fun n => ex_move (small n)) (ex_move 0) /\ (forall n, kep_init ek (ex_move (small n)) = Ok (os n) /\ physical (os n)) /\
  kep_init ek (ex_move 0) = Ok o /\ physical o /\ no_ecc_duration (ex_move 0) /\ sinw_of o <> -1 /\ (forall n, ex_move (small n) <> ex_move 0).
Proof. exact move_example. Qed.
Example C99_example_light : exists os O ps o,
  disk_flux (3 / 10) (2 / 10) <> 0 /\ (forall q, disk_flux (3 / 10 * (1 - small q)) (2 / 10 + small q) <> 0) /\ Un_cv (fun q => 3 / 10 * (1 - small q)) (3 / 10) /\ Un_cv (fun q => 2 / 10 + small q) (2 / 10) /\
  (forall q, system ek 2 (ex_full_sys 2 (near_bs q) 2 1 1 (1 / 2)) (fun j => ex_full_args (near_bs q j) 2 1 1 (1 / 2)) (os q)) /\ (forall q, kep_init ek (ex_full_sys 2 (near_bs q) 2 1 1 (1 / 2)) = Ok (O q)) /\
  system ek 2 (ex_full_sys 2 ex_bs 2 1 1 (1 / 2)) (fun j => ex_full_args (ex_bs j) 2 1 1 (1 / 2)) ps /\ kep_init ek (ex_full_sys 2 ex_bs 2 1 1 (1 / 2)) = Ok o /\
  (forall j, (j < 2)%nat -> args_tend (fun q => ex_full_args (near_bs q j) 2 1 1 (1 / 2)) (ex_full_args (ex_bs j) 2 1 1 (1 / 2)) /\ sinw_of (ps j) <> -1) /\
  (forall q, elements 2 (vector 2 (fun _ => 1 / 10 + small q)) (fun _ => 1 / 10 + small q)) /\ elements 2 (vector 2 (fun _ => 1 / 10)) (fun _ => 1 / 10) /\
  (forall j, (j < 2)%nat -> Un_cv (fun q => 1 / 10 + small q) (1 / 10) /\ o_r_star (ps j) + Rabs (1 / 10) < o_a (ps j) * (1 - ecc_of (ps j))) /\
  (forall q, is_vector 3 (vector 3 (fun m => INR m + small q)) /\ forall m, (m < 3)%nat -> aget (vector 3 (fun m => INR m + small q)) (at_time m) = Fin (INR m + small q)) /\
  is_vector 3 (vector 3 INR) /\ (forall m, (m < 3)%nat -> aget (vector 3 INR) (at_time m) = Fin (INR m)) /\ (forall m, (m < 3)%nat -> Un_cv (fun q => INR m + small q) (INR m)) /\
  (forall q, opt_exposures 3 (one_texp (Some (1 / 4 - small q / 10))) (fun _ => 1 / 4 - small q / 10) /\ is_none (one_texp (Some (1 / 4 - small q / 10))) = is_none (one_texp (Some (1 / 4)))) /\
  opt_exposures 3 (one_texp (Some (1 / 4))) (fun _ => 1 / 4) /\ Un_cv (fun q => 1 / 4 - small q / 10) (1 / 4) /\ exists nodes weights, stencil 7 2 = Ok (nodes, weights).
Proof. exact near_example. Qed.
Example C99_example_duration : exists os o, args_tend (fun n => ex_stretch (small n)) (ex_stretch 0) /\ (forall n, kep_init ek (ex_stretch (small n)) = Ok (os n) /\ physical (os n)) /\
  kep_init ek (ex_stretch 0) = Ok o /\ physical o /\ ~ no_ecc_duration (ex_stretch 0) /\ duration_fits ek (ex_stretch 0) o /\ sinw_of o <> -1 /\ (forall n, ex_stretch (small n) <> ex_stretch 0).
Proof. exact stretch_example. Qed.
