(** * Times, radii and exposure times that are not numbers: property C102 *)
From Coq Require Import Reals List Bool Arith ZArith.
From Verif Require Import Num CoreOps Inst CoreFlux M_units M_kepler M_fin M_tensor M_simple M_ttv M_limbdark M_interpolated Spec_orbit Spec_params Spec_array Spec_simple Spec_ttv Spec_light Spec_interp Spec_undef
  L_undef2 L_undef3 L_undef4 Ex_orbit Ex_system L_simple2 L_ttv6 Ex_compose Ex_accuracy Ex_undef.
Import ListNotations.
Open Scope R_scope.

(** KeplerianOrbit: the position, velocity, acceleration and angles at an undefined time are NaN, and no other row of the result is affected *)
Theorem C102_motion : forall k n x o, planet_args n x -> kep_init k x = Ok o -> forall par ld b, opt_per_planet n par ->
  nan_rows3 n (fun t => pos k o b t par ld) /\ nan_rows3 n (fun t => vel o b t) /\ nan_rows3 n (fun t => acc o b t) /\ nan_rows n (fun t => fst (get_relative_angles k o (kep_warp o) t par ld)) /\ nan_rows n (fun t => snd (get_relative_angles k o (kep_warp o) t par ld)).
Proof. exact motion_rows. Qed.
Print Assumptions C102_motion.

(** so is the radial velocity *)
Theorem C102_radial_velocity : forall k n x o, planet_args n x -> kep_init k x = Ok o -> forall K u N t t' X X', opt_per_planet n K -> is_vector N t -> is_vector N t' ->
  get_radial_velocity k o (kep_warp o) t K u = Ok X -> get_radial_velocity k o (kep_warp o) t' K u = Ok X' ->
  exists f f', is_table n N X f /\ is_table n N X' f' /\ forall m j, (m < N)%nat -> (j < n)%nat ->
    (undefined (aget t (at_time m)) -> f m j = NaN) /\ (aget t (at_time m) = aget t' (at_time m) -> f m j = f' m j).
Proof. exact rv_rows. Qed.
Print Assumptions C102_radial_velocity.

(** SimpleTransitOrbit: only the coordinate along the orbit is NaN; the planet is reported behind the star *)
Theorem C102_simple_position : forall (x : sargs fl) t, undefined t ->
  simple_relative_position (simple_init x) t false = Ok (NaN, fadd (fmul (dflt (Fin 0) (sa_b x)) (dflt (Fin 1) (sa_r_star x))) (Fin 0), Fin (-1)).
Proof. exact simple_positionU. Qed.
Print Assumptions C102_simple_position.

(** KeplerianOrbit.in_transit lists no undefined time, unless the contact points are not found *)
Theorem C102_in_transit : forall k n x o cp r, (0 < n)%nat -> planet_args n x -> kep_init k x = Ok o -> per_planet n r ->
  finds_defined n true (fun t e => kep_in_transit o (kep_warp o) (lift_cp cp) t r e false).
Proof. exact kepler_finds. Qed.
Print Assumptions C102_in_transit.

(** circular orbits: without exception *)
Theorem C102_in_transit_circular : forall k n x o cp r, (0 < n)%nat -> planet_args n x -> kep_init k x = Ok o -> ka_ecc x = None -> per_planet n r ->
  finds_defined n false (fun t e => kep_in_transit o (kep_warp o) (lift_cp cp) t r e false).
Proof. exact kepler_circ_finds. Qed.
Print Assumptions C102_in_transit_circular.

(** SimpleTransitOrbit: without exception *)
Theorem C102_in_transit_simple : forall n x xs r, simple_system n x xs -> per_planet n r ->
  finds_defined n false (fun t e => simple_in_transit (simple_init x) t (Some r) e false).
Proof. exact simple_finds. Qed.
Print Assumptions C102_in_transit_simple.

(** TTVOrbit *)
Theorem C102_in_transit_ttv : forall k n o os tts cp r, consts_ok k -> ttv_system k n o os tts -> per_planet n r ->
  finds_defined n true (fun t e => kep_in_transit (tt_orbit o) (ttv_warp o) (lift_cp cp) t r e false).
Proof. exact ttv_finds. Qed.
Print Assumptions C102_in_transit_ttv.

(** light curves of a KeplerianOrbit are exactly zero, not NaN, where the time or the exposure time is undefined, and unaffected elsewhere; with and without the mask, with and without light delay *)
Theorem C102_light_curve : forall k n x o, (0 < n)%nat -> planet_args n x -> kep_init k x = Ok o -> forall l r sr use ld, ash r = Ok sr -> prod sr = n -> (masks use ld = true -> ld = false) -> forall cp, skips_undefined n (fun e => masks use ld = true -> single e)
  (fun t e osam order => get_light_curve l (Some (kep_api k (lift_cp cp) o)) (Some r) (Some t) e osam order use ld).
Proof. exact kepler_skips. Qed.
Print Assumptions C102_light_curve.

(** the same for a SimpleTransitOrbit *)
Theorem C102_light_curve_simple : forall n x xs, simple_system n x xs -> (forall j, (j < n)%nat -> simple_ok (xs j)) -> forall l r sr use, ash r = Ok sr -> prod sr = n -> skips_undefined n (fun e => masks use false = true -> single e)
  (fun t e osam order => get_light_curve l (Some (simple_api (simple_init x))) (Some r) (Some t) e osam order use false).
Proof. exact simple_skips. Qed.
Print Assumptions C102_light_curve_simple.

(** the same for a TTVOrbit *)
Theorem C102_light_curve_ttv : forall k n o os tts, consts_ok k -> ttv_system k n o os tts -> forall l r sr use, ash r = Ok sr -> prod sr = n -> forall cp, skips_undefined n (fun e => masks use false = true -> single e)
  (fun t e osam order => get_light_curve l (Some (ttv_api k (lift_cp cp) o)) (Some r) (Some t) e osam order use false).
Proof. exact ttv_skips. Qed.
Print Assumptions C102_light_curve_ttv.

(** with the default mask the light curve of planets on circular orbits whose radii are undefined is zero as well *)
Theorem C102_radius : forall k n x o l r sr cp N t e ev osam order, (0 < n)%nat -> planet_args n x -> kep_init k x = Ok o -> ka_ecc x = None ->
  ash r = Ok sr -> prod sr = n -> (forall j, (j < n)%nat -> undefined (flat r j)) ->
  is_vector N t -> exposure_values N e ev -> single e -> (0 <= osam)%Z -> (order = 0 \/ order = 1 \/ order = 2)%Z ->
  exists X, get_light_curve l (Some (kep_api k (lift_cp cp) o)) (Some r) (Some t) e osam order None false = Ok X /\ light_table n N X (fun _ _ => 0).
Proof. exact radiusU. Qed.
Print Assumptions C102_radius.

Example C102_example : exists os o, system ek 2 (ex_sys_args 2 ex_bs) (fun j => ex_b_args (ex_bs j)) os /\ planet_args 2 (ex_sys_args 2 ex_bs) /\
  kep_init ek (ex_sys_args 2 ex_bs) = Ok o /\ ka_ecc (ex_sys_args 2 ex_bs) = None /\
  is_vector 3 gap_times /\ undefined (aget gap_times (at_time 1)) /\ exposure_values 3 None (fun _ => Fin 0) /\
  forall cp, exists X, get_light_curve (ld_init (Fin (3 / 10)) (Fin (2 / 10))) (Some (kep_api ek (lift_cp cp) o)) (Some (vector 2 (fun _ => 1 / 10))) (Some gap_times) None 7 0 None false = Ok X /\
    ash X = Ok [2%nat; 3%nat] /\ aget X (at_tp 1 0) = Fin 0 /\ aget X (at_tp 2 0) = Fin 0.
Proof. exact undef_example. Qed.
Example C102_example_others : (exists o os, consts_ok ek /\ ttv_init ek ex_x = Ok o /\ ttv_system ek 2 o os ex_tts) /\
  (simple_system 1 ex_one_simple (fun _ => ex_simple (1 / 2)) /\ simple_ok (ex_simple (1 / 2))) /\
  is_vector 3 gap_times /\ undefined (aget gap_times (at_time 1)) /\ exposure_values 3 (Some (scalar (1 / 10))) (fun _ => Fin (1 / 10)) /\ single (Some (scalar (1 / 10))) /\
  (ash nan_radius = Ok [2%nat] /\ prod [2%nat] = 2%nat /\ (forall j, (j < 2)%nat -> undefined (flat nan_radius j))) /\
  (is_vector 3 (vector 3 INR) /\ per_planet 2 (vector 2 (fun _ => 1 / 10))).
Proof. exact undef_others. Qed.

(** an InterpolatedLightCurve is less forgiving: one undefined time and there is no result at all *)
Theorem C102_interpolated_refuted : forall n base Q np tv t0 period f T0 P s t i, interpolating n base Q np tv t0 period f T0 P -> ash t = Ok s -> (i < prod s)%nat -> undefined (aget t (unlin s i)) ->
  interpolated_light_curve base Q np tv t0 period t = Err IndexErr.
Proof. exact interp_undefined. Qed.
Print Assumptions C102_interpolated_refuted.

Example C102_example_interpolated : forall cp, exists o r, kep_init ek (ex_scalar_args 0) = Ok o /\
  (exists f T0 P, interpolating 1 (fun t => get_light_curve (ld_init (Fin (3 / 10)) (Fin (2 / 10))) (Some (kep_api ek (lift_cp cp) o)) (Some r) (Some t) None 7 0 None false)
    50 None (Some 1%nat) (o_t0 o) (o_period o) f T0 P) /\
  let t := mkA (Ok [3]%nat) (fun i => if Nat.eqb (i O) 1 then NaN else Fin (INR (i O))) in ash t = Ok [3]%nat /\ undefined (aget t (unlin [3]%nat 1)).
Proof. exact interp_undefined_example. Qed.
