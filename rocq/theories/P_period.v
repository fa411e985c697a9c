(** * Light curves repeat: property C88 *)
From Coq Require Import Reals List Bool Arith ZArith.
From Verif Require Import Num CoreOps Inst CoreFlux M_units M_kepler M_fin M_tensor M_simple M_ttv M_limbdark M_secondary
  Spec_orbit Spec_params Spec_array Spec_light Spec_simple Spec_secondary Spec_delay Spec_sym Spec_period L_period L_simple2 Ex_orbit Ex_system Ex_sym Ex_period.
Import ListNotations.
Open Scope R_scope.

(** the same entries are in transit a whole number of periods later *)
Theorem C88_in_transit : forall k n N x xs os o t t' ts ts' cp r rs te es ld, consts_ok k -> system k n x xs os -> kep_init k x = Ok o ->
  is_vector N t -> (forall m, (m < N)%nat -> aget t (at_time m) = Fin (ts m)) ->
  is_vector N t' -> (forall m, (m < N)%nat -> aget t' (at_time m) = Fin (ts' m)) ->
  periods_apart n N (fun j => o_period (os j)) ts ts' ->
  planet_values n r rs -> opt_values n te es ->
  oa_in_transit (kep_api k (lift_cp cp) o) t' r te ld = oa_in_transit (kep_api k (lift_cp cp) o) t r te ld.
Proof. exact period_in_transit. Qed.
Print Assumptions C88_in_transit.
(** light curves repeat *)
Theorem C88_light : forall k n N x xs os o t t' ts ts' u1 u2 cp r rs texp es osam order use ld, consts_ok k -> system k n x xs os -> kep_init k x = Ok o ->
  is_vector N t -> (forall m, (m < N)%nat -> aget t (at_time m) = Fin (ts m)) ->
  is_vector N t' -> (forall m, (m < N)%nat -> aget t' (at_time m) = Fin (ts' m)) ->
  periods_apart n N (fun j => o_period (os j)) ts ts' ->
  disk_flux u1 u2 <> 0 -> elements n r rs -> opt_exposures N texp es ->
  (ld = true -> forall j, (j < n)%nat -> slow k (os j)) -> (use = Some false \/ ld = true \/ (exists e, texp = one_texp e)) ->
  same_light n N
    (get_light_curve (ld_init (Fin u1) (Fin u2)) (Some (kep_api k (lift_cp cp) o)) (Some r) (Some t) texp osam order use ld)
    (get_light_curve (ld_init (Fin u1) (Fin u2)) (Some (kep_api k (lift_cp cp) o)) (Some r) (Some t') texp osam order use ld).
Proof. exact period_light. Qed.
Print Assumptions C88_light.
(** and so do light curves with secondary eclipses *)
Theorem C88_secondary : forall k n N x xs os o t t' ts ts' u1 u2 v1 v2 s ss cp r rs texp es osam order use ld, consts_ok k -> system k n x xs os -> kep_init k x = Ok o ->
  is_vector N t -> (forall m, (m < N)%nat -> aget t (at_time m) = Fin (ts m)) ->
  is_vector N t' -> (forall m, (m < N)%nat -> aget t' (at_time m) = Fin (ts' m)) ->
  periods_apart n N (fun j => o_period (os j)) ts ts' ->
  disk_flux u1 u2 <> 0 -> disk_flux v1 v2 <> 0 -> planet_values n r rs -> (forall j, (j < n)%nat -> 0 < rs j) -> one_each n r -> one_each n (o_r_star o) ->
  planet_values n s ss -> (forall j, (j < n)%nat -> 0 <= ss j) -> opt_exposures N texp es ->
  (ld = true -> forall j, (j < n)%nat -> slow k (os j)) -> (use = Some false \/ ld = true \/ (exists e, texp = one_texp e)) ->
  let S := {| se_primary := ld_init (Fin u1) (Fin u2); se_secondary := ld_init (Fin v1) (Fin v2); se_ratio := s |} in
  same_light n N (secondary_light_curve k (lift_cp cp) S o r (Some t) texp osam order use ld) (secondary_light_curve k (lift_cp cp) S o r (Some t') texp osam order use ld).
Proof. exact period_secondary. Qed.
Print Assumptions C88_secondary.
(** planets with different periods: the column of planet j repeats whenever the time moves by periods of planet j *)
Theorem C88_row : forall k n N x xs os o t t' ts ts' u1 u2 cp r rs texp es osam order ld, consts_ok k -> system k n x xs os -> kep_init k x = Ok o ->
  is_vector N t -> (forall m, (m < N)%nat -> aget t (at_time m) = Fin (ts m)) ->
  is_vector N t' -> (forall m, (m < N)%nat -> aget t' (at_time m) = Fin (ts' m)) ->
  disk_flux u1 u2 <> 0 -> elements n r rs -> opt_exposures N texp es -> (exists nw, stencil osam order = Ok nw) ->
  (ld = true -> forall j, (j < n)%nat -> slow k (os j)) ->
  exists X X', get_light_curve (ld_init (Fin u1) (Fin u2)) (Some (kep_api k (lift_cp cp) o)) (Some r) (Some t) texp osam order (Some false) ld = Ok X /\
    get_light_curve (ld_init (Fin u1) (Fin u2)) (Some (kep_api k (lift_cp cp) o)) (Some r) (Some t') texp osam order (Some false) ld = Ok X' /\
    forall m j (z : Z), (m < N)%nat -> (j < n)%nat -> ts' m = ts m + IZR z * o_period (os j) -> aget X' (at_tp m j) = aget X (at_tp m j).
Proof. exact period_row. Qed.
Print Assumptions C88_row.
(** orbits given by their duration *)
Theorem C88_simple_in_transit : forall n N x xs t t' ts ts' r te ld, simple_system n x xs -> (forall j, (j < n)%nat -> simple_ok (xs j)) ->
  is_vector N t -> (forall m, (m < N)%nat -> aget t (at_time m) = Fin (ts m)) ->
  is_vector N t' -> (forall m, (m < N)%nat -> aget t' (at_time m) = Fin (ts' m)) ->
  periods_apart n N (fun j => sa_period (xs j)) ts ts' -> opt_per_planet n r -> opt_per_planet n te ->
  simple_in_transit (simple_init x) t' r te ld = simple_in_transit (simple_init x) t r te ld.
Proof. exact simple_period_in_transit. Qed.
Print Assumptions C88_simple_in_transit.
(** and their light curves *)
Theorem C88_simple : forall n N x xs t t' ts ts' u1 u2 r rs texp es osam order use, simple_system n x xs -> (forall j, (j < n)%nat -> simple_ok (xs j)) ->
  is_vector N t -> (forall m, (m < N)%nat -> aget t (at_time m) = Fin (ts m)) ->
  is_vector N t' -> (forall m, (m < N)%nat -> aget t' (at_time m) = Fin (ts' m)) ->
  periods_apart n N (fun j => sa_period (xs j)) ts ts' ->
  disk_flux u1 u2 <> 0 -> elements n r rs -> opt_exposures N texp es -> (use = Some false \/ (exists e, texp = one_texp e)) ->
  same_light n N
    (get_light_curve (ld_init (Fin u1) (Fin u2)) (Some (simple_api (simple_init x))) (Some r) (Some t) texp osam order use false)
    (get_light_curve (ld_init (Fin u1) (Fin u2)) (Some (simple_api (simple_init x))) (Some r) (Some t') texp osam order use false).
Proof. exact simple_period_light. Qed.
Print Assumptions C88_simple.
(** two planets of period 10, seen 20 days apart *)
Example C88_example : exists os o, disk_flux (3 / 10) (2 / 10) <> 0 /\ consts_ok ek /\
  system ek 2 (ex_full_sys 2 ex_bs 2 1 1 (1 / 2)) (fun j => ex_full_args (ex_bs j) 2 1 1 (1 / 2)) os /\
  kep_init ek (ex_full_sys 2 ex_bs 2 1 1 (1 / 2)) = Ok o /\
  (forall j, (j < 2)%nat -> slow ek (os j) /\ o_period (os j) = 10) /\
  planet_values 2 (vector 2 (fun _ => 1 / 10)) (fun _ => 1 / 10) /\ elements 2 (vector 2 (fun _ => 1 / 10)) (fun _ => 1 / 10) /\
  one_each 2 (vector 2 (fun _ => 1 / 10)) /\ one_each 2 (o_r_star o) /\
  is_vector 3 (vector 3 INR) /\ (forall m, (m < 3)%nat -> aget (vector 3 INR) (at_time m) = Fin (INR m)) /\
  is_vector 3 (vector 3 two_later) /\ (forall m, (m < 3)%nat -> aget (vector 3 two_later) (at_time m) = Fin (two_later m)) /\
  periods_apart 2 3 (fun j => o_period (os j)) INR two_later.
Proof. exact period_example. Qed.
Example C88_example_simple : simple_system 2 (ex_simples (fun j => INR j / 2)) (fun j => ex_simple (INR j / 2)) /\ (forall j, (j < 2)%nat -> simple_ok (ex_simple (INR j / 2))) /\
  periods_apart 2 3 (fun j => sa_period (ex_simple (INR j / 2))) INR two_later.
Proof. exact simple_period_example. Qed.
