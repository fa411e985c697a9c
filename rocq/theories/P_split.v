(** * Cutting, joining and reordering observations: property C109 *)
From Coq Require Import Reals List Bool Arith ZArith Sorted.
From Verif Require Import Num CoreOps Inst CoreFlux M_units M_kepler M_fin M_tensor M_simple M_ttv M_limbdark Spec_orbit Spec_params Spec_array Spec_simple Spec_ttv Spec_light Spec_undef Spec_split
  L_split L_split2 Ex_orbit Ex_system L_simple2 L_ttv6 Ex_compose Ex_accuracy Ex_undef Ex_split.
Import ListNotations.
Local Notation length := List.length.
Open Scope R_scope.

(** KeplerianOrbit: every row of a position, velocity, acceleration, separation or position angle depends on its own time only *)
Theorem C109_motion : forall k n x o, planet_args n x -> kep_init k x = Ok o -> forall par ld b, opt_per_planet n par ->
  row_by_row3 n (fun t => pos k o b t par ld) /\ row_by_row3 n (fun t => vel o b t) /\ row_by_row3 n (fun t => acc o b t) /\
  row_by_row n (fun t => fst (get_relative_angles k o (kep_warp o) t par ld)) /\ row_by_row n (fun t => snd (get_relative_angles k o (kep_warp o) t par ld)).
Proof. exact split_motion. Qed.
Print Assumptions C109_motion.

(** so does every row of the radial velocity *)
Theorem C109_radial_velocity : forall k n x o, planet_args n x -> kep_init k x = Ok o -> forall K u N t N' t' X X', opt_per_planet n K -> is_vector N t -> is_vector N' t' ->
  get_radial_velocity k o (kep_warp o) t K u = Ok X -> get_radial_velocity k o (kep_warp o) t' K u = Ok X' ->
  exists f f', is_table n N X f /\ is_table n N' X' f' /\ forall m m' j, (m < N)%nat -> (m' < N')%nat -> (j < n)%nat -> aget t (at_time m) = aget t' (at_time m') -> f m j = f' m' j.
Proof. exact split_rv. Qed.
Print Assumptions C109_radial_velocity.

(** TTVOrbit: every row of a position or velocity depends on its own time only *)
Theorem C109_motion_ttv : forall k n o os tts N t ts N' t' ts' b, consts_ok k -> ttv_system k n o os tts -> is_vector N t -> (forall m, (m < N)%nat -> aget t (at_time m) = Fin (ts m)) ->
  is_vector N' t' -> (forall m, (m < N')%nat -> aget t' (at_time m) = Fin (ts' m)) ->
  exists f f' g g', is_table3 n N (tpos k o b t None false) f /\ is_table3 n N' (tpos k o b t' None false) f' /\ is_table3 n N (tvel o b t) g /\ is_table3 n N' (tvel o b t') g' /\
    forall m m' j, (m < N)%nat -> (m' < N')%nat -> (j < n)%nat -> ts m = ts' m' -> f m j = f' m' j /\ g m j = g' m' j.
Proof. exact split_motion_ttv. Qed.
Print Assumptions C109_motion_ttv.

(** whether in_transit lists an observation depends on its own time only *)
Theorem C109_in_transit : forall k n x o cp r e, (0 < n)%nat -> planet_args n x -> kep_init k x = Ok o -> per_planet n r -> opt_per_planet n e -> single e ->
  found_one_by_one (fun t => kep_in_transit o (kep_warp o) (lift_cp cp) t r e false).
Proof. exact split_found. Qed.
Print Assumptions C109_in_transit.

(** the same for SimpleTransitOrbit *)
Theorem C109_in_transit_simple : forall n x xs r e, simple_system n x xs -> per_planet n r -> opt_per_planet n e -> single e ->
  found_one_by_one (fun t => simple_in_transit (simple_init x) t (Some r) e false).
Proof. exact split_found_simple. Qed.
Print Assumptions C109_in_transit_simple.

(** and for TTVOrbit *)
Theorem C109_in_transit_ttv : forall k n o os tts cp r e, consts_ok k -> ttv_system k n o os tts -> per_planet n r -> opt_per_planet n e -> single e ->
  found_one_by_one (fun t => kep_in_transit (tt_orbit o) (ttv_warp o) (lift_cp cp) t r e false).
Proof. exact split_found_ttv. Qed.
Print Assumptions C109_in_transit_ttv.

(** in_transit of joined times: the list for the first part followed by that for the second, shifted by the number of times in the first *)
Theorem C109_joined_in_transit : forall k n x o cp r e N t N' t' T, (0 < n)%nat -> planet_args n x -> kep_init k x = Ok o -> per_planet n r -> opt_per_planet n e -> single e -> joined N t N' t' T ->
  let find t := kep_in_transit o (kep_warp o) (lift_cp cp) t r e false in exists l l', find t = Ok l /\ find t' = Ok l' /\ find T = Ok (l ++ map (Nat.add N) l').
Proof. exact join_found. Qed.
Print Assumptions C109_joined_in_transit.

(** the same for SimpleTransitOrbit *)
Theorem C109_joined_in_transit_simple : forall n x xs r e N t N' t' T, simple_system n x xs -> per_planet n r -> opt_per_planet n e -> single e -> joined N t N' t' T ->
  let find t := simple_in_transit (simple_init x) t (Some r) e false in exists l l', find t = Ok l /\ find t' = Ok l' /\ find T = Ok (l ++ map (Nat.add N) l').
Proof. exact join_found_simple. Qed.
Print Assumptions C109_joined_in_transit_simple.

(** and for TTVOrbit *)
Theorem C109_joined_in_transit_ttv : forall k n o os tts cp r e N t N' t' T, consts_ok k -> ttv_system k n o os tts -> per_planet n r -> opt_per_planet n e -> single e -> joined N t N' t' T ->
  let find t := kep_in_transit (tt_orbit o) (ttv_warp o) (lift_cp cp) t r e false in exists l l', find t = Ok l /\ find t' = Ok l' /\ find T = Ok (l ++ map (Nat.add N) l').
Proof. exact join_found_ttv. Qed.
Print Assumptions C109_joined_in_transit_ttv.

(** three times cut in two; the transit is in the second part *)
Example C109_example : exists os o, system ek 2 (ex_sys_args 2 ex_bs) (fun j => ex_b_args (ex_bs j)) os /\ planet_args 2 (ex_sys_args 2 ex_bs) /\ kep_init ek (ex_sys_args 2 ex_bs) = Ok o /\
  joined 2 (vector 2 INR) 1 (vector 1 (fun _ => 2)) (vector 3 INR) /\
  per_planet 2 (scalar (1 / 10)) /\ opt_per_planet 2 (Some (scalar (1 / 10))) /\ single (Some (scalar (1 / 10))) /\ exposure_values 3 (Some (scalar (1 / 10))) (fun _ => Fin (1 / 10)) /\
  forall cp, exists l l', kep_in_transit o (kep_warp o) (lift_cp cp) (vector 2 INR) (scalar (1 / 10)) None false = Ok l /\
    kep_in_transit o (kep_warp o) (lift_cp cp) (vector 1 (fun _ => 2)) (scalar (1 / 10)) None false = Ok l' /\ l' = [0%nat] /\
    kep_in_transit o (kep_warp o) (lift_cp cp) (vector 3 INR) (scalar (1 / 10)) None false = Ok (l ++ [2%nat]).
Proof. exact cut_example. Qed.

(** every row of a light curve depends on its own time and exposure time only *)
Theorem C109_light_curve : forall k n x o, (0 < n)%nat -> planet_args n x -> kep_init k x = Ok o -> forall l r sr use ld, ash r = Ok sr -> prod sr = n -> (masks use ld = true -> ld = false) -> forall cp,
  observed_one_by_one n (fun e => masks use ld = true -> single e) (fun t e osam order => get_light_curve l (Some (kep_api k (lift_cp cp) o)) (Some r) (Some t) e osam order use ld).
Proof. exact split_light. Qed.
Print Assumptions C109_light_curve.

(** the same for SimpleTransitOrbit *)
Theorem C109_light_curve_simple : forall n x xs, simple_system n x xs -> (forall j, (j < n)%nat -> simple_ok (xs j)) -> forall l r sr use, ash r = Ok sr -> prod sr = n ->
  observed_one_by_one n (fun e => masks use false = true -> single e) (fun t e osam order => get_light_curve l (Some (simple_api (simple_init x))) (Some r) (Some t) e osam order use false).
Proof. exact split_light_simple. Qed.
Print Assumptions C109_light_curve_simple.

(** and for TTVOrbit *)
Theorem C109_light_curve_ttv : forall k n o os tts, consts_ok k -> ttv_system k n o os tts -> forall l r sr use, ash r = Ok sr -> prod sr = n -> forall cp,
  observed_one_by_one n (fun e => masks use false = true -> single e) (fun t e osam order => get_light_curve l (Some (ttv_api k (lift_cp cp) o)) (Some r) (Some t) e osam order use false).
Proof. exact split_light_ttv. Qed.
Print Assumptions C109_light_curve_ttv.

(** so a light curve may be computed in parts *)
Theorem C109_joined_light_curve : forall n allowed curve N t N' t' T e osam order, observed_one_by_one n allowed curve -> joined N t N' t' T -> (forall a, e = Some a -> twf a) -> single e -> allowed e -> (0 <= osam)%Z -> (order = 0 \/ order = 1 \/ order = 2)%Z ->
  exists X X' Y, curve t e osam order = Ok X /\ curve t' e osam order = Ok X' /\ curve T e osam order = Ok Y /\ ash Y = Ok [n; (N + N')%nat] /\
    (forall m j, (m < N)%nat -> (j < n)%nat -> aget Y (at_tp m j) = aget X (at_tp m j)) /\ (forall m j, (m < N')%nat -> (j < n)%nat -> aget Y (at_tp (N + m) j) = aget X' (at_tp m j)).
Proof. exact join_light. Qed.
Print Assumptions C109_joined_light_curve.

Example C109_example_others : (exists o os, consts_ok ek /\ ttv_init ek ex_x = Ok o /\ ttv_system ek 2 o os ex_tts) /\
  (simple_system 1 ex_one_simple (fun _ => ex_simple (1 / 2)) /\ simple_ok (ex_simple (1 / 2))) /\
  joined 2 (vector 2 INR) 1 (vector 1 (fun _ => 2)) (vector 3 INR) /\ per_planet 2 (vector 2 (fun _ => 1 / 10)) /\ per_planet 1 (scalar (1 / 10)) /\ opt_per_planet 2 (Some (scalar (1 / 10))) /\ single (Some (scalar (1 / 10))).
Proof. exact cut_others. Qed.

(** one exposure time per observation: whether in_transit lists an observation depends on the exposure times of the others *)
Theorem C109_exposures_refuted : exists (x : kargs tens) o (ts es : nat -> R), kep_init ek x = Ok o /\ (forall m, 0 <= es m) /\
  forall cp, exists l l', kep_in_transit o (kep_warp o) (lift_cp cp) (vector 2 ts) (scalar 0) (Some (vector 2 es)) false = Ok l /\
    kep_in_transit o (kep_warp o) (lift_cp cp) (vector 1 ts) (scalar 0) (Some (vector 1 es)) false = Ok l' /\ In 0%nat l /\ ~ In 0%nat l'.
Proof. exact cut_exposures. Qed.
Print Assumptions C109_exposures_refuted.
