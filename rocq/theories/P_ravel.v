(** * Times of any shape: property C112 *)
From Coq Require Import Reals List Bool Arith ZArith.
From Verif Require Import Num CoreOps Inst CoreFlux M_units M_kepler M_fin M_tensor M_simple M_ttv M_limbdark Spec_orbit Spec_params Spec_array Spec_light Spec_simple Spec_ttv Spec_undef Spec_ravel
  Ex_orbit Ex_system Ex_compose L_ttv6 L_simple2 Ex_stack L_ravel3 Ex_ravel.
Import ListNotations.
Local Notation length := List.length.
Open Scope R_scope.

(** KeplerianOrbit: positions, velocities, accelerations, separations and position angles *)
Theorem C112_motion : forall k n x o b par ld, planet_args n x -> kep_init k x = Ok o -> opt_per_planet n par ->
  any_shape3 n (fun t => pos k o b t par ld) /\ any_shape3 n (fun t => vel o b t) /\ any_shape3 n (fun t => acc o b t) /\
  any_shape n (fun t => fst (get_relative_angles k o (kep_warp o) t par ld)) /\ any_shape n (fun t => snd (get_relative_angles k o (kep_warp o) t par ld)).
Proof. exact ravel_motion. Qed.
Print Assumptions C112_motion.

(** radial velocities; units that do not fit are an error for all shapes *)
Theorem C112_radial_velocity : forall k n x o K u s t s' t' X, planet_args n x -> kep_init k x = Ok o -> opt_per_planet n K -> same_list s t s' t' ->
  get_radial_velocity k o (kep_warp o) t K u = Ok X ->
  exists X', get_radial_velocity k o (kep_warp o) t' K u = Ok X' /\ ash X = Ok (squeezed (n :: s)) /\ ash X' = Ok (squeezed (n :: s')) /\
    forall q, (q < n * prod s)%nat -> flat X q = flat X' q.
Proof. exact ravel_rv. Qed.
Print Assumptions C112_radial_velocity.

(** SimpleTransitOrbit *)
Theorem C112_motion_simple : forall n x xs, simple_system n x xs ->
  (forall t, exists v, simple_relative_position (simple_init x) t false = Ok v) /\
  any_shape3 n (fun t => match simple_relative_position (simple_init x) t false with Ok v => v | Err _ => (t, t, t) end).
Proof. exact ravel_simple. Qed.
Print Assumptions C112_motion_simple.

(** TTVOrbit *)
Theorem C112_motion_ttv : forall k n o os tts b, consts_ok k -> ttv_system k n o os tts ->
  any_shape3 n (fun t => tpos k o b t None false) /\ any_shape3 n (fun t => tvel o b t).
Proof. exact ravel_ttv. Qed.
Print Assumptions C112_motion_ttv.

(** light curves without in_transit *)
Theorem C112_light_curve : forall k n x o l r sr use ld cp, planet_args n x -> kep_init k x = Ok o -> ash r = Ok sr -> prod sr = n -> masks use ld = false ->
  any_shape_curve n (fun t e osam order => get_light_curve l (Some (kep_api k (lift_cp cp) o)) (Some r) (Some t) e osam order use ld).
Proof. exact ravel_curve_kepler. Qed.
Print Assumptions C112_light_curve.

(** the same for the other orbits *)
Theorem C112_light_curve_others : forall l r sr,
  (forall n x xs, simple_system n x xs -> (forall j, (j < n)%nat -> simple_ok (xs j)) -> ash r = Ok sr -> prod sr = n ->
    any_shape_curve n (fun t e osam order => get_light_curve l (Some (simple_api (simple_init x))) (Some r) (Some t) e osam order (Some false) false)) /\
  (forall k n o os tts cp, consts_ok k -> ttv_system k n o os tts -> ash r = Ok sr -> prod sr = n ->
    any_shape_curve n (fun t e osam order => get_light_curve l (Some (ttv_api k (lift_cp cp) o)) (Some r) (Some t) e osam order (Some false) false)).
Proof. exact ravel_curve_others. Qed.
Print Assumptions C112_light_curve_others.

(** in_transit answers for vectors only *)
Theorem C112_in_transit : forall n s t e, ash t = Ok s -> length s <> 1%nat -> opt_per_planet n e ->
  (forall k x o cp r, planet_args n x -> kep_init k x = Ok o -> per_planet n r -> kep_in_transit o (kep_warp o) (lift_cp cp) t r e false = Err IndexErr) /\
  (forall k o os tts cp r, consts_ok k -> ttv_system k n o os tts -> per_planet n r -> kep_in_transit (tt_orbit o) (ttv_warp o) (lift_cp cp) t r e false = Err IndexErr) /\
  (forall x xs r, simple_system n x xs -> s <> [] -> opt_per_planet n r -> simple_in_transit (simple_init x) t r e false = Err IndexErr).
Proof. exact ravel_in_transit. Qed.
Print Assumptions C112_in_transit.

(** and so does the light curve that relies on it, which is the default *)
Theorem C112_default_refuted : forall l n s t e r sr osam order use, ash t = Ok s -> length s <> 1%nat -> opt_per_planet n e -> ash r = Ok sr -> prod sr = n -> masks use false = true ->
  (forall k x o cp, planet_args n x -> kep_init k x = Ok o -> get_light_curve l (Some (kep_api k (lift_cp cp) o)) (Some r) (Some t) e osam order use false = Err IndexErr) /\
  (forall k o os tts cp, consts_ok k -> ttv_system k n o os tts -> get_light_curve l (Some (ttv_api k (lift_cp cp) o)) (Some r) (Some t) e osam order use false = Err IndexErr) /\
  (forall x xs, simple_system n x xs -> s <> [] -> get_light_curve l (Some (simple_api (simple_init x))) (Some r) (Some t) e osam order use false = Err IndexErr).
Proof. exact ravel_default. Qed.
Print Assumptions C112_default_refuted.

(** six times as two rows of three *)
Example C112_example : exists os o, system ek 2 (ex_sys_args 2 ex_bs) (fun j => ex_b_args (ex_bs j)) os /\ planet_args 2 (ex_sys_args 2 ex_bs) /\
  kep_init ek (ex_sys_args 2 ex_bs) = Ok o /\ same_list [3; 2]%nat two_rows [6]%nat (vector 6 INR) /\ aget two_rows (cons_ix 2 (cons_ix 1 ix0)) = Fin (INR 5) /\
  forall cp, exists X X',
    get_light_curve (ld_init (Fin (3 / 10)) (Fin (2 / 10))) (Some (kep_api ek (lift_cp cp) o)) (Some (vector 2 (fun _ => 1 / 10))) (Some two_rows) (Some (scalar (1 / 10))) 7 0 (Some false) false = Ok X /\
    get_light_curve (ld_init (Fin (3 / 10)) (Fin (2 / 10))) (Some (kep_api ek (lift_cp cp) o)) (Some (vector 2 (fun _ => 1 / 10))) (Some (vector 6 INR)) (Some (scalar (1 / 10))) 7 0 (Some false) false = Ok X' /\
    ash X = Ok [2; 3; 2]%nat /\ ash X' = Ok [2; 6]%nat /\ aget X (cons_ix 1 (cons_ix 2 (cons_ix 1 ix0))) = aget X' (at_tp 5 1) /\
    get_light_curve (ld_init (Fin (3 / 10)) (Fin (2 / 10))) (Some (kep_api ek (lift_cp cp) o)) (Some (vector 2 (fun _ => 1 / 10))) (Some two_rows) (Some (scalar (1 / 10))) 7 0 None false = Err IndexErr.
Proof. exact ravel_example. Qed.

Example C112_example_others : (exists o os, consts_ok ek /\ ttv_init ek ex_x = Ok o /\ ttv_system ek 2 o os ex_tts) /\
  (simple_system 1 ex_one_simple (fun _ => ex_simple (1 / 2)) /\ simple_ok (ex_simple (1 / 2))) /\
  same_list [3; 2]%nat two_rows [6]%nat (vector 6 INR) /\ same_exposures [3; 2]%nat (Some two_rows) [6]%nat (Some (vector 6 INR)) /\ opt_per_planet 2 (Some (scalar (1 / 10))).
Proof. exact ravel_others. Qed.
