(** * Rounding errors in light curves of a KeplerianOrbit: property C119 *)
From Coq Require Import Reals List Arith ZArith.
From Verif Require Import Num CoreOps Inst CoreFlux M_units M_kepler M_tensor M_limbdark Spec_orbit Spec_params Spec_array Spec_light Spec_dist Spec_lip Spec_accuracy Spec_float Spec_float2 Spec_float3 Spec_float5 Spec_float6
  L_float29 L_float33 Ex_orbit Ex_lip Ex_compose Ex_float Ex_float6.
Import ListNotations.
Local Notation length := List.length.
Open Scope R_scope.

(** the constructor of a system of n planets computes numbers only, those of each planet from its own arguments *)
Theorem C119_constructor : forall u rd, accurate u rd -> forall k, consts_ok k -> forall n x xs os, (0 < n)%nat -> machine_args u n x xs ->
  (forall j, (j < n)%nat -> machine_orbit u rd k (xs j) (os j) /\ (forall b, ka_b (xs j) = Some b -> Rabs (o_cos_incl (os j)) <= 1)) ->
  exists o, @kep_init tens btens (rounded_tens rd) k x = Ok o /\ array_orbit n o os.
Proof. exact constructor_float. Qed.
Print Assumptions C119_constructor.

(** get_light_curve of a KeplerianOrbit: within the bound of the exact flux of the exact motion of that orbit *)
Theorem C119_curve : forall u rd, accurate u rd -> exact_zero rd -> forall eps F, solves eps F -> forall u1 u2, physical_law (intensity u1 u2) ->
  forall k, consts_ok k -> forall n o xs os mask r rs N t ts osam order, array_orbit n o os -> (forall j, (j < n)%nat -> machine_orbit u rd k (xs j) (os j)) ->
  elements n r rs -> (forall j, (j < n)%nat -> 0 <= rs j) -> is_vector N t -> (forall m, (m < N)%nat -> aget t (at_time m) = Fin (ts m)) ->
  (forall m j, (m < N)%nat -> (j < n)%nat -> far_enough u (os j) (rs j) (ts m)) ->
  table_near n N (computed_curve rd F u1 u2 (Some (computed_kepler rd k o mask)) (Some r) (Some t) None osam order (Some false) false)
    (fun m j => flux_at u1 u2 (@get_relative_position R bool NumR k (os j) (@kep_warp R bool NumR (os j)) (ts m) None false) (rs j) (o_r_star (os j)))
    (fun m j => flux_error u eps + distance_error u (rs j / o_r_star (os j)) (2 * motion_error u (os j) (ts m) / o_r_star (os j))).
Proof. exact kepler_float. Qed.
Print Assumptions C119_curve.

(** and with exposure times *)
Theorem C119_exposures : forall u rd, accurate u rd -> exact_zero rd -> forall eps F, solves eps F -> forall u1 u2, physical_law (intensity u1 u2) ->
  forall k, consts_ok k -> forall n o xs os mask r rs N t ts e es osam order nodes weights, array_orbit n o os -> (forall j, (j < n)%nat -> machine_orbit u rd k (xs j) (os j)) ->
  elements n r rs -> (forall j, (j < n)%nat -> 0 <= rs j) -> is_vector N t -> (forall m, (m < N)%nat -> aget t (at_time m) = Fin (ts m)) ->
  exposures N e es -> stencil osam order = Ok (nodes, weights) ->
  (forall m j, (m < N)%nat -> (j < n)%nat -> far_exposed u (os j) (rs j) (ts m) (es m)) ->
  table_near n N (computed_curve rd F u1 u2 (Some (computed_kepler rd k o mask)) (Some r) (Some t) (Some e) osam order (Some false) false)
    (fun m j => node_mean nodes weights (fun s => flux_at u1 u2 (@get_relative_position R bool NumR k (os j) (@kep_warp R bool NumR (os j)) s None false) (rs j) (o_r_star (os j))) (ts m) (es m))
    (fun m j => mean_error u (length nodes) (flux_error u eps + distance_error u (rs j / o_r_star (os j)) 0)
       + 32 * (rs j / o_r_star (os j) * (2 * exposure_error u (os j) (ts m) (es m) / o_r_star (os j)))).
Proof. exact kepler_float_exposures. Qed.
Print Assumptions C119_exposures.

(** with the default use_in_transit=True: the same at the times in_transit() returns, exactly zero at all others *)
Theorem C119_masked : forall u rd, accurate u rd -> exact_zero rd -> forall eps F, solves eps F -> forall u1 u2, physical_law (intensity u1 u2) ->
  forall k, consts_ok k -> forall n o xs os mask r rs N t ts osam order inds, array_orbit n o os -> (forall j, (j < n)%nat -> machine_orbit u rd k (xs j) (os j)) ->
  elements n r rs -> (forall j, (j < n)%nat -> 0 <= rs j) -> is_vector N t -> (forall m, (m < N)%nat -> aget t (at_time m) = Fin (ts m)) ->
  (forall a, elements n a rs -> mask t a None false = Ok inds) -> (forall m, In m inds -> (m < N)%nat) ->
  (forall m j, In m inds -> (j < n)%nat -> far_enough u (os j) (rs j) (ts m)) ->
  exists X v, computed_curve rd F u1 u2 (Some (computed_kepler rd k o mask)) (Some r) (Some t) None osam order None false = Ok X /\ light_table n N X v /\
    forall m j, (m < N)%nat -> (j < n)%nat ->
      (In m inds -> Rabs (v m j - flux_at u1 u2 (@get_relative_position R bool NumR k (os j) (@kep_warp R bool NumR (os j)) (ts m) None false) (rs j) (o_r_star (os j)))
         <= flux_error u eps + distance_error u (rs j / o_r_star (os j)) (2 * motion_error u (os j) (ts m) / o_r_star (os j))) /\
      (~ In m inds -> v m j = 0).
Proof. exact kepler_float_masked. Qed.
Print Assumptions C119_masked.

(** and with an exposure time *)
Theorem C119_masked_exposure : forall u rd, accurate u rd -> exact_zero rd -> forall eps F, solves eps F -> forall u1 u2, physical_law (intensity u1 u2) ->
  forall k, consts_ok k -> forall n o xs os mask r rs N t ts e osam order nodes weights inds, array_orbit n o os -> (forall j, (j < n)%nat -> machine_orbit u rd k (xs j) (os j)) ->
  elements n r rs -> (forall j, (j < n)%nat -> 0 <= rs j) -> is_vector N t -> (forall m, (m < N)%nat -> aget t (at_time m) = Fin (ts m)) ->
  stencil osam order = Ok (nodes, weights) ->
  (forall a, elements n a rs -> mask t a (Some (scalar e)) false = Ok inds) -> (forall m, In m inds -> (m < N)%nat) ->
  (forall m j, In m inds -> (j < n)%nat -> far_exposed u (os j) (rs j) (ts m) e) ->
  exists X v, computed_curve rd F u1 u2 (Some (computed_kepler rd k o mask)) (Some r) (Some t) (Some (scalar e)) osam order None false = Ok X /\ light_table n N X v /\
    forall m j, (m < N)%nat -> (j < n)%nat ->
      (In m inds -> Rabs (v m j - node_mean nodes weights (fun s => flux_at u1 u2 (@get_relative_position R bool NumR k (os j) (@kep_warp R bool NumR (os j)) s None false) (rs j) (o_r_star (os j))) (ts m) e)
         <= mean_error u (length nodes) (flux_error u eps + distance_error u (rs j / o_r_star (os j)) 0)
            + 32 * (rs j / o_r_star (os j) * (2 * exposure_error u (os j) (ts m) e / o_r_star (os j)))) /\
      (~ In m inds -> v m j = 0).
Proof. exact kepler_float_masked_exposure. Qed.
Print Assumptions C119_masked_exposure.

(** an eccentric orbit of 10 days in double precision, up to a hundred days from time zero: better than 1e-8 of the flux of the star *)
Example C119_example : accurate half_ulp double /\ exact_zero double /\ solves 0 fsolution /\ physical_law (intensity (3 / 10) (2 / 10)) /\ consts_ok ek /\
  elements 1 (scalar (1 / 10)) (fun _ => 1 / 10) /\ is_vector 3 (vector 3 INR) /\ (forall m, (m < 3)%nat -> aget (vector 3 INR) (at_time m) = Fin (INR m)) /\
  exposures 3 (scalar (1 / 4)) (fun _ => 1 / 4) /\ (exists nodes weights, stencil 7 0 = Ok (nodes, weights)) /\
  machine_args half_ulp 1 ex_wide_arrays (fun _ => ex_wide_args) /\
  exists o O, machine_orbit half_ulp double ek ex_wide_args o /\ @kep_init tens btens (rounded_tens double) ek ex_wide_arrays = Ok O /\ array_orbit 1 O (fun _ => o) /\ o_r_star o = 1 /\
    forall t, Rabs t <= 100 -> far_enough half_ulp o (1 / 10) t /\ (forall e, 0 <= e <= 1 -> far_exposed half_ulp o (1 / 10) t e) /\
      flux_error half_ulp 0 + distance_error half_ulp (1 / 10 / o_r_star o) (2 * motion_error half_ulp o t / o_r_star o) <= / 10 ^ 8.
Proof. exact kfloat_example. Qed.

