(** * Rounding errors in light curves: property C118 *)
From Coq Require Import Reals List Arith ZArith.
From Verif Require Import Num CoreOps Inst CoreFlux M_units M_kepler M_tensor M_simple M_limbdark Spec_orbit Spec_params Spec_array Spec_simple Spec_light Spec_dist Spec_lip Spec_accuracy Spec_float Spec_float2 Spec_float3 Spec_float5
  L_simple2 L_float22 L_float24 Ex_compose Ex_float Ex_float5.
Import ListNotations.
Local Notation length := List.length.
Open Scope R_scope.

(** compute_light_curve: within 300 u + 3 eps of the exact flux, exactly zero behind the star *)
Theorem C118_flux : forall u rd, accurate u rd -> forall eps F, solves eps F -> forall u1 u2, physical_law (intensity u1 u2) ->
  forall b r los i bi ri li, aget b i = Fin bi -> aget r i = Fin ri -> aget los i = Fin li ->
  exists v, aget (computed_flux rd F u1 u2 b r (Some los)) i = Fin v /\ Rabs (v - rel_flux u1 u2 bi ri li) <= flux_error u eps /\ (li <= 0 -> v = 0).
Proof. exact flux_float. Qed.
Print Assumptions C118_flux.

(** only for physical limb darkening: where the flux of the whole star is close to zero there is no such bound *)
Theorem C118_dim_refuted : ~ (forall u rd, accurate u rd -> forall eps F, solves eps F -> forall u1 u2, disk_flux u1 u2 <> 0 ->
  forall b r los i bi ri li, aget b i = Fin bi -> aget r i = Fin ri -> aget los i = Fin li ->
  exists v, aget (computed_flux rd F u1 u2 b r (Some los)) i = Fin v /\ Rabs (v - rel_flux u1 u2 bi ri li) <= flux_error u eps).
Proof. exact dim_error. Qed.
Print Assumptions C118_dim_refuted.

(** get_light_curve of any orbit: the flux at the positions the orbit answers *)
Theorem C118_curve : forall u rd, accurate u rd -> forall eps F, solves eps F -> forall u1 u2, physical_law (intensity u1 u2) ->
  forall A ld n P rst r rs N t ts os order, answers A ld n P -> planet_numbers n (oa_r_star A) rst -> elements n r rs ->
  (forall j, (j < n)%nat -> 0 < rst j /\ 0 <= rs j) -> is_vector N t -> (forall m, (m < N)%nat -> aget t (at_time m) = Fin (ts m)) ->
  table_near n N (computed_curve rd F u1 u2 (Some A) (Some r) (Some t) None os order (Some false) ld)
    (fun m j => flux_at u1 u2 (P j (ts m)) (rs j) (rst j)) (fun m j => flux_error u eps + distance_error u (rs j / rst j) 0).
Proof. exact curve_float. Qed.
Print Assumptions C118_curve.

(** with exposures: the rounded times of the nodes matter as much as the flux changes between them and the exact ones (E) *)
Theorem C118_curve_exposures : forall u rd, accurate u rd -> forall eps F, solves eps F -> forall u1 u2, physical_law (intensity u1 u2) ->
  forall A ld n P rst r rs N t ts e es osam order nodes weights E, answers A ld n P -> planet_numbers n (oa_r_star A) rst -> elements n r rs ->
  (forall j, (j < n)%nat -> 0 < rst j /\ 0 <= rs j) -> is_vector N t -> (forall m, (m < N)%nat -> aget t (at_time m) = Fin (ts m)) ->
  exposures N e es -> stencil osam order = Ok (nodes, weights) ->
  (forall m j x s, (m < N)%nat -> (j < n)%nat -> In x nodes -> Rabs (s - (ts m + es m * x)) <= u * (Rabs (ts m) + 2 * Rabs (es m)) ->
     Rabs (flux_at u1 u2 (P j s) (rs j) (rst j) - flux_at u1 u2 (P j (ts m + es m * x)) (rs j) (rst j)) <= E m j) ->
  table_near n N (computed_curve rd F u1 u2 (Some A) (Some r) (Some t) (Some e) osam order (Some false) ld)
    (fun m j => node_mean nodes weights (fun s => flux_at u1 u2 (P j s) (rs j) (rst j)) (ts m) (es m))
    (fun m j => mean_error u (length nodes) (flux_error u eps + distance_error u (rs j / rst j) 0) + E m j).
Proof. exact curve_float_exposures. Qed.
Print Assumptions C118_curve_exposures.

(** SimpleTransitOrbit, its own rounding errors included *)
Theorem C118_simple : forall u rd, accurate u rd -> rd OLit 1 0 1 = 1 -> forall eps F, solves eps F -> forall u1 u2, physical_law (intensity u1 u2) ->
  forall n x xs r rs N t ts os order, simple_system n x xs -> (forall j, (j < n)%nat -> graze_ok u (xs j)) -> elements n r rs ->
  (forall j, (j < n)%nat -> 0 <= rs j <= dflt 0 (sa_ror (xs j)) * dflt 1 (sa_r_star (xs j))) -> is_vector N t -> (forall m, (m < N)%nat -> aget t (at_time m) = Fin (ts m)) ->
  table_near n N (computed_curve rd F u1 u2 (Some (computed_simple rd x)) (Some r) (Some t) None os order (Some false) false)
    (fun m j => flux_at u1 u2 (spos (xs j) (ts m)) (rs j) (dflt 1 (sa_r_star (xs j))))
    (fun m j => flux_error u eps + distance_error u (rs j / dflt 1 (sa_r_star (xs j))) (place_error u (xs j) (ts m) 0 / dflt 1 (sa_r_star (xs j)))).
Proof. exact simple_float. Qed.
Print Assumptions C118_simple.

(** and with exposures *)
Theorem C118_simple_exposures : forall u rd, accurate u rd -> rd OLit 1 0 1 = 1 -> forall eps F, solves eps F -> forall u1 u2, physical_law (intensity u1 u2) ->
  forall n x xs r rs N t ts e es osam order nodes weights, simple_system n x xs -> (forall j, (j < n)%nat -> graze_ok u (xs j)) -> elements n r rs ->
  (forall j, (j < n)%nat -> 0 <= rs j <= dflt 0 (sa_ror (xs j)) * dflt 1 (sa_r_star (xs j))) -> is_vector N t -> (forall m, (m < N)%nat -> aget t (at_time m) = Fin (ts m)) ->
  exposures N e es -> stencil osam order = Ok (nodes, weights) ->
  table_near n N (computed_curve rd F u1 u2 (Some (computed_simple rd x)) (Some r) (Some t) (Some e) osam order (Some false) false)
    (fun m j => node_mean nodes weights (fun s => flux_at u1 u2 (spos (xs j) s) (rs j) (dflt 1 (sa_r_star (xs j)))) (ts m) (es m))
    (fun m j => mean_error u (length nodes) (flux_error u eps + distance_error u (rs j / dflt 1 (sa_r_star (xs j))) 0)
       + 32 * (rs j / dflt 1 (sa_r_star (xs j)) * (place_error u (xs j) (ts m) (u * (Rabs (ts m) + 3 * Rabs (es m))) / dflt 1 (sa_r_star (xs j))))).
Proof. exact simple_float_exposures. Qed.
Print Assumptions C118_simple_exposures.

(** with the default use_in_transit=True: the times left out by the rounded in_transit() are times of a flux within the error *)
Theorem C118_simple_default : forall u rd, accurate u rd -> rd OLit 1 0 1 = 1 -> forall eps F, solves eps F -> forall u1 u2, physical_law (intensity u1 u2) ->
  forall n x xs r rs N t ts os order, simple_system n x xs -> (forall j, (j < n)%nat -> graze_ok u (xs j)) -> elements n r rs ->
  (forall j, (j < n)%nat -> 0 <= rs j <= dflt 0 (sa_ror (xs j)) * dflt 1 (sa_r_star (xs j)) /\ reach_ok u (xs j) (rs j)) -> is_vector N t -> (forall m, (m < N)%nat -> aget t (at_time m) = Fin (ts m)) ->
  table_near n N (computed_curve rd F u1 u2 (Some (computed_simple rd x)) (Some r) (Some t) None os order None false)
    (fun m j => flux_at u1 u2 (spos (xs j) (ts m)) (rs j) (dflt 1 (sa_r_star (xs j))))
    (fun m j => flux_error u eps + distance_error u (rs j / dflt 1 (sa_r_star (xs j))) (place_error u (xs j) (ts m) 0 / dflt 1 (sa_r_star (xs j)))
       + 32 * (rs j / dflt 1 (sa_r_star (xs j)) * (mask_error u (xs j) (rs j) (ts m) 0 / dflt 1 (sa_r_star (xs j))))).
Proof. exact simple_default. Qed.
Print Assumptions C118_simple_default.

(** and with an exposure time *)
Theorem C118_simple_default_exposures : forall u rd, accurate u rd -> rd OLit 1 0 1 = 1 -> forall eps F, solves eps F -> forall u1 u2, physical_law (intensity u1 u2) ->
  forall n x xs r rs N t ts e osam order nodes weights, simple_system n x xs -> (forall j, (j < n)%nat -> graze_ok u (xs j)) -> elements n r rs ->
  (forall j, (j < n)%nat -> 0 <= rs j <= dflt 0 (sa_ror (xs j)) * dflt 1 (sa_r_star (xs j)) /\ reach_ok u (xs j) (rs j)) -> is_vector N t -> (forall m, (m < N)%nat -> aget t (at_time m) = Fin (ts m)) ->
  0 <= e -> stencil osam order = Ok (nodes, weights) ->
  table_near n N (computed_curve rd F u1 u2 (Some (computed_simple rd x)) (Some r) (Some t) (Some (scalar e)) osam order None false)
    (fun m j => node_mean nodes weights (fun s => flux_at u1 u2 (spos (xs j) s) (rs j) (dflt 1 (sa_r_star (xs j)))) (ts m) e)
    (fun m j => mean_error u (length nodes) (flux_error u eps + distance_error u (rs j / dflt 1 (sa_r_star (xs j))) 0)
       + 32 * (rs j / dflt 1 (sa_r_star (xs j)) * (place_error u (xs j) (ts m) (u * (Rabs (ts m) + 3 * Rabs e)) / dflt 1 (sa_r_star (xs j))))
       + 32 * (rs j / dflt 1 (sa_r_star (xs j)) * (mask_error u (xs j) (rs j) (ts m) e / dflt 1 (sa_r_star (xs j))))).
Proof. exact simple_default_exposures. Qed.
Print Assumptions C118_simple_default_exposures.

(** double precision, a thousand days from t0: better than 1e-10 of the flux of the star *)
Example C118_example : accurate half_ulp double /\ double OLit 1 0 1 = 1 /\ solves 0 fsolution /\ physical_law (intensity (3 / 10) (2 / 10)) /\
  simple_system 1 ex_one_simple (fun _ => ex_simple (1 / 2)) /\ graze_ok half_ulp (ex_simple (1 / 2)) /\ elements 1 (scalar (1 / 10)) (fun _ => 1 / 10) /\
  (0 <= 1 / 10 <= dflt 0 (sa_ror (ex_simple (1 / 2))) * dflt 1 (sa_r_star (ex_simple (1 / 2)))) /\
  reach_ok half_ulp (ex_simple (1 / 2)) (1 / 10) /\ is_vector 3 (vector 3 INR) /\ (forall m, (m < 3)%nat -> aget (vector 3 INR) (at_time m) = Fin (INR m)) /\ exposures 3 (scalar (1 / 4)) (fun _ => 1 / 4) /\
  (exists nodes weights, stencil 7 0 = Ok (nodes, weights)) /\
  flux_error half_ulp 0 + distance_error half_ulp (1 / 10) (place_error half_ulp (ex_simple (1 / 2)) 1000 0) <= / 10 ^ 10.
Proof. exact lfloat_example. Qed.

