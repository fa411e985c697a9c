(** * Accuracy of integrated and interpolated light curves: property C92 *)
From Coq Require Import Reals List ZArith.
From Verif Require Import Num CoreOps Inst CoreFlux M_units M_kepler M_fin M_tensor M_simple M_ttv M_limbdark M_interpolated M_compose Spec_orbit Spec_params Spec_array Spec_light Spec_simple Spec_delay Spec_interp Spec_lip Spec_accuracy
  L_light8 L_accuracy Ex_orbit Ex_system Ex_sym L_simple2 Ex_compose Ex_accuracy.
Import ListNotations.
Open Scope R_scope.

(** the light curve of a Keplerian orbit with exposure times is close to the mean, over each exposure, of the light curve without *)
Theorem C92_exposure : forall u1 u2 k n (x : kargs tens) xs os o cp r rs,
  disk_flux u1 u2 <> 0 -> consts_ok k -> system k n x xs os -> kep_init k x = Ok o ->
  elements n r rs -> (forall j, (j < n)%nat -> 0 <= rs j /\ o_r_star (os j) + rs j <= o_a (os j) * (1 - ecc_of (os j))) ->
  let curve t texp osam order := get_light_curve (ld_init (Fin u1) (Fin u2)) (Some (kep_api k cp o)) (Some r) (Some t) texp osam order (Some false) false in
  exists F, instantaneous n (fun t => curve t None 7%Z 0%Z) F /\
  forall N t ts e es osam order, is_vector N t -> (forall m, (m < N)%nat -> aget t (at_time m) = Fin (ts m)) -> exposures N e es -> (forall m, (m < N)%nat -> 0 < es m) -> centred osam order ->
    table_near n N (curve t (Some e) osam order) (fun m j => exposure_mean (F j) (ts m) (es m))
      (fun m j => rule_error osam order (steepest u1 u2 (rs j) (o_r_star (os j)) (peak_speed (os j))) (es m)).
Proof. exact kepler_accurate. Qed.
Print Assumptions C92_exposure.

(** so it is by default, where the times out of transit are skipped *)
Theorem C92_default : forall u1 u2 k n (x : kargs tens) xs os o cp r rs,
  disk_flux u1 u2 <> 0 -> consts_ok k -> system k n x xs os -> kep_init k x = Ok o ->
  elements n r rs -> (forall j, (j < n)%nat -> ka_ecc (xs j) = None /\ 0 <= rs j /\ o_r_star (os j) + rs j < o_a (os j) /\ 0 <= o_sin_incl (os j)) ->
  let curve t texp osam order := get_light_curve (ld_init (Fin u1) (Fin u2)) (Some (kep_api k (lift_cp cp) o)) (Some r) (Some t) texp osam order None false in
  exists F, instantaneous n (fun t => curve t None 7%Z 0%Z) F /\
  forall N t ts e osam order, is_vector N t -> (forall m, (m < N)%nat -> aget t (at_time m) = Fin (ts m)) -> 0 < e -> centred osam order ->
    table_near n N (curve t (Some (scalar e)) osam order) (fun m j => exposure_mean (F j) (ts m) e)
      (fun m j => rule_error osam order (steepest u1 u2 (rs j) (o_r_star (os j)) (peak_speed (os j))) e).
Proof. exact default_accurate. Qed.
Print Assumptions C92_default.

(** SimpleTransitOrbit *)
Theorem C92_simple : forall u1 u2 n x xs r rs,
  disk_flux u1 u2 <> 0 -> simple_system n x xs -> (forall j, (j < n)%nat -> simple_ok (xs j)) ->
  elements n r rs -> (forall j, (j < n)%nat -> 0 <= rs j <= dflt 0 (sa_ror (xs j)) * dflt 1 (sa_r_star (xs j))) ->
  let curve t texp osam order := get_light_curve (ld_init (Fin u1) (Fin u2)) (Some (simple_api (simple_init x))) (Some r) (Some t) texp osam order (Some false) false in
  exists F, instantaneous n (fun t => curve t None 7%Z 0%Z) F /\
  forall N t ts e es osam order, is_vector N t -> (forall m, (m < N)%nat -> aget t (at_time m) = Fin (ts m)) -> exposures N e es -> (forall m, (m < N)%nat -> 0 < es m) -> centred osam order ->
    table_near n N (curve t (Some e) osam order) (fun m j => exposure_mean (F j) (ts m) (es m))
      (fun m j => rule_error osam order (steepest u1 u2 (rs j) (dflt 1 (sa_r_star (xs j))) (chord_speed (xs j))) (es m)).
Proof. exact simple_accurate. Qed.
Print Assumptions C92_simple.

(** an interpolated light curve is close to the one it replaces *)
Theorem C92_interpolated : forall u1 u2 k n (x : kargs tens) xs os o cp r rs use Q np tv N t ts,
  disk_flux u1 u2 <> 0 -> consts_ok k -> system k n x xs os -> kep_init k x = Ok o -> elements n r rs ->
  (forall j, (j < n)%nat -> 0 <= rs j /\ o_r_star (os j) + rs j <= o_a (os j) * (1 - ecc_of (os j))) ->
  use = false \/ (forall j, (j < n)%nat -> ka_ecc (xs j) = None /\ 0 <= rs j /\ o_r_star (os j) + rs j < o_a (os j) /\ 0 <= o_sin_incl (os j)) ->
  (0 <= Q)%Z -> counted np tv n ->
  ash (o_t0 o) = Ok (if Nat.leb n 1 then [] else [n]) -> ash (o_period o) = Ok (if Nat.leb n 1 then [] else [n]) ->
  is_vector N t -> (forall m, (m < N)%nat -> aget t (at_time m) = Fin (ts m)) ->
  close_tables n N (light_curve_of k (lift_cp cp) (Interpolated (LimbDark (ld_init (Fin u1) (Fin u2))) Q np) (Some (Keplerian o)) tv (Some r) (Some t) None 7 0 (Some use) false)
    (light_curve_of k (lift_cp cp) (LimbDark (ld_init (Fin u1) (Fin u2))) (Some (Keplerian o)) tv (Some r) (Some t) None 7 0 (Some use) false)
    (fun m j => 3 / 4 * steepest u1 u2 (rs j) (o_r_star (os j)) (peak_speed (os j)) * (o_period (os j) / IZR (Q + 1))).
Proof. exact interpolated_accurate. Qed.
Print Assumptions C92_interpolated.

(** SimpleTransitOrbit *)
Theorem C92_interpolated_simple : forall k cp u1 u2 n x xs tv r rs use Q np N t ts,
  disk_flux u1 u2 <> 0 -> simple_system n x xs -> (forall j, (j < n)%nat -> simple_ok (xs j)) -> elements n r rs ->
  (forall j, (j < n)%nat -> 0 <= rs j <= dflt 0 (sa_ror (xs j)) * dflt 1 (sa_r_star (xs j))) ->
  use = false \/ (forall j, (j < n)%nat -> Rabs (dflt 0 (sa_b (xs j))) < 1 + dflt 0 (sa_ror (xs j)) /\
     Rabs (dflt 0 (sa_b (xs j))) * dflt 1 (sa_r_star (xs j)) <> dflt 1 (sa_r_star (xs j)) + rs j) ->
  (0 <= Q)%Z -> counted np tv n ->
  ash (s_t0 (simple_init x)) = Ok (if Nat.leb n 1 then [] else [n]) -> ash (sa_period x) = Ok (if Nat.leb n 1 then [] else [n]) ->
  is_vector N t -> (forall m, (m < N)%nat -> aget t (at_time m) = Fin (ts m)) ->
  close_tables n N (light_curve_of k cp (Interpolated (LimbDark (ld_init (Fin u1) (Fin u2))) Q np) (Some (Simple (simple_init x))) tv (Some r) (Some t) None 7 0 (Some use) false)
    (light_curve_of k cp (LimbDark (ld_init (Fin u1) (Fin u2))) (Some (Simple (simple_init x))) tv (Some r) (Some t) None 7 0 (Some use) false)
    (fun m j => 3 / 4 * steepest u1 u2 (rs j) (dflt 1 (sa_r_star (xs j))) (chord_speed (xs j)) * (sa_period (xs j) / IZR (Q + 1))).
Proof. exact simple_interpolated_accurate. Qed.
Print Assumptions C92_interpolated_simple.

Example C92_example : exists os o, disk_flux (3 / 10) (2 / 10) <> 0 /\ consts_ok ek /\
  system ek 2 (ex_full_sys 2 ex_bs 2 1 1 (1 / 2)) (fun j => ex_full_args (ex_bs j) 2 1 1 (1 / 2)) os /\
  kep_init ek (ex_full_sys 2 ex_bs 2 1 1 (1 / 2)) = Ok o /\
  elements 2 (vector 2 (fun _ => 1 / 10)) (fun _ => 1 / 10) /\
  (forall j, (j < 2)%nat -> 0 <= 1 / 10 /\ o_r_star (os j) + 1 / 10 <= o_a (os j) * (1 - ecc_of (os j))) /\
  is_vector 3 (vector 3 INR) /\ (forall m, (m < 3)%nat -> aget (vector 3 INR) (at_time m) = Fin (INR m)) /\
  exposures 3 (scalar (1 / 4)) (fun _ => 1 / 4) /\ centred 7 0 /\ centred 2 1 /\ centred 3 2 /\ rule_error 7 2 9 (1 / 4) = 5 / 48.
Proof. exact exposed_example. Qed.
Example C92_example_interpolated : exists o o', system ek 1 (ex_scalar_args 0) (fun _ => ex_b_args 0) (fun _ => o) /\
  kep_init ek (ex_scalar_args 0) = Ok o' /\ disk_flux (3 / 10) (2 / 10) <> 0 /\ consts_ok ek /\
  elements 1 (scalar (1 / 10)) (fun _ => 1 / 10) /\
  (0 <= 1 / 10 /\ o_r_star o + 1 / 10 <= o_a o * (1 - ecc_of o)) /\
  (ka_ecc (ex_b_args 0) = None /\ 0 <= 1 / 10 /\ o_r_star o + 1 / 10 < o_a o /\ 0 <= o_sin_incl o) /\
  counted (Some 1%Z) None 1 /\ ash (o_t0 o') = Ok [] /\ ash (o_period o') = Ok [].
Proof. exact interpolated_example. Qed.
Example C92_example_simple : simple_system 1 ex_one_simple (fun _ => ex_simple (1 / 2)) /\ simple_ok (ex_simple (1 / 2)) /\
  (0 <= 1 / 10 <= dflt 0 (sa_ror (ex_simple (1 / 2))) * dflt 1 (sa_r_star (ex_simple (1 / 2)))).
Proof. exact simple_exposed_example. Qed.
