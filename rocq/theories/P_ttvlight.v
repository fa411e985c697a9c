(** * TTVOrbit: in_transit and light curves: property C75 *)
From Coq Require Import Reals List Bool Arith ZArith Lra Lia Sorted String.
From Verif Require Import Num CoreOps Inst CoreFlux M_units M_kepler M_kwargs M_fin M_tensor M_ttv M_limbdark
  Spec_orbit Spec_params Spec_array Spec_ttv Spec_light Ex_orbit Ex_system L_ttv6 L_ttv7 L_ttv8 L_ttv9.
Import ListNotations.
Open Scope R_scope.

(** ** C75 *)
(** circular orbits: exactly the exposures during which, relative to the transit
    closest to the middle of the exposure, some planet is in front of the star *)
Theorem C75_in_transit : forall k n o os tts near N r rs te es t ts cp, consts_ok k -> ttv_system k n o os tts -> nearest_transits n tts near ->
  planet_values n r rs -> opt_values n te es -> (forall j, (j < n)%nat -> 0 <= es j) ->
  is_vector N t -> (forall m, (m < N)%nat -> aget t (at_time m) = Fin (ts m)) ->
  (forall j, (j < n)%nat -> o_ecc (os j) = None /\ 0 <= rs j /\ o_r_star (os j) + rs j < o_a (os j) /\ 0 <= o_sin_incl (os j)) ->
  exists l, oa_in_transit (ttv_api k (lift_cp cp) o) t r te false = Ok l /\ StronglySorted lt l /\
    forall m, In m l <-> (m < N)%nat /\ exists j s, (j < n)%nat /\ Rabs (s - ts m) <= es j / 2 /\
      transits k (os j) (rs j) (o_t0 (os j) + (s - near j (ts m))).
Proof. intros; eapply ttv_in_circ; eassumption. Qed.
Print Assumptions C75_in_transit.
Theorem C75_in_transit_eccentric : forall k n o os tts near N r rs te es t ts cp al be, consts_ok k -> ttv_system k n o os tts -> nearest_transits n tts near ->
  planet_values n r rs -> opt_values n te es -> (forall j, (j < n)%nat -> 0 <= es j) ->
  is_vector N t -> (forall m, (m < N)%nat -> aget t (at_time m) = Fin (ts m)) ->
  (forall j, (j < n)%nat -> o_ecc (os j) <> None /\ transit_interval k (os j) (rs j) (al j) (be j) /\
     solved cp (os j) (rs j) (al j) (be j) /\
     al j + es j / 2 < o_period (os j) / 2 /\ be j + es j / 2 < o_period (os j) / 2) ->
  exists l, oa_in_transit (ttv_api k (lift_cp cp) o) t r te false = Ok l /\ StronglySorted lt l /\
    forall m, In m l <-> (m < N)%nat /\ exists j s, (j < n)%nat /\ Rabs (s - ts m) <= es j / 2 /\
      transits k (os j) (rs j) (o_t0 (os j) + (s - near j (ts m))).
Proof. intros; eapply ttv_in_ecc; eassumption. Qed.
Print Assumptions C75_in_transit_eccentric.
(** the contact point solver reports failure: every index is returned *)
Theorem C75_failed_solver : forall k n o os tts N r rs te es t ts cp j, consts_ok k -> ttv_system k n o os tts ->
  planet_values n r rs -> opt_values n te es ->
  is_vector N t -> (forall m, (m < N)%nat -> aget t (at_time m) = Fin (ts m)) ->
  (j < n)%nat -> o_ecc (os j) <> None -> snd (solver_answer cp (os j) (rs j)) <> Fin 0 ->
  oa_in_transit (ttv_api k (lift_cp cp) o) t r te false = Ok (seq 0 N).
Proof. intros; eapply ttv_in_flag; eassumption. Qed.
Print Assumptions C75_failed_solver.
(** light curves are those of the shifted positions *)
Theorem C75_light_curve : forall u1 u2 k n o os tts near cp r rs N t ts os' order,
  disk_flux u1 u2 <> 0 -> consts_ok k -> ttv_system k n o os tts -> nearest_transits n tts near ->
  elements n r rs -> is_vector N t -> (forall m, (m < N)%nat -> aget t (at_time m) = Fin (ts m)) ->
  exists X, get_light_curve (ld_init (Fin u1) (Fin u2)) (Some (ttv_api k cp o)) (Some r) (Some t) None os' order (Some false) false = Ok X /\
    light_table n N X (fun m j => flux_at u1 u2 (pos k (os j) Relative (orbit_time os near j (ts m)) None false) (rs j) (o_r_star (os j))).
Proof. exact lc_ttv. Qed.
Print Assumptions C75_light_curve.
Theorem C75_exposed : forall u1 u2 k n o os tts near cp r rs N t ts e es os' order nodes weights,
  disk_flux u1 u2 <> 0 -> consts_ok k -> ttv_system k n o os tts -> nearest_transits n tts near ->
  elements n r rs -> is_vector N t -> (forall m, (m < N)%nat -> aget t (at_time m) = Fin (ts m)) ->
  exposures N e es -> stencil os' order = Ok (nodes, weights) ->
  exists X, get_light_curve (ld_init (Fin u1) (Fin u2)) (Some (ttv_api k cp o)) (Some r) (Some t) (Some e) os' order (Some false) false = Ok X /\
    light_table n N X (fun m j => node_mean nodes weights (fun s => flux_at u1 u2 (pos k (os j) Relative (orbit_time os near j s) None false) (rs j) (o_r_star (os j))) (ts m) (es m)).
Proof. exact lc_ttv_exposed. Qed.
Print Assumptions C75_exposed.
(** skipping the exposures out of transit changes nothing.  Eccentric orbits
    with exposure times need transits whose spacing is neither shorter than the
    transits nor close to twice the period *)
Theorem C75_mask : forall u1 u2 k n o os tts cp r rs N t ts e os' order,
  disk_flux u1 u2 <> 0 -> consts_ok k -> ttv_system k n o os tts ->
  elements n r rs -> (forall j, (j < n)%nat -> 0 <= rs j) -> is_vector N t -> (forall m, (m < N)%nat -> aget t (at_time m) = Fin (ts m)) ->
  0 <= pad_of e -> (0 <= os')%Z -> (order = 0 \/ order = 1 \/ order = 2)%Z ->
  (forall j, (j < n)%nat -> o_ecc (os j) = None /\ o_r_star (os j) + rs j < o_a (os j) /\ 0 <= o_sin_incl (os j)) \/
  (exists al be, (forall j, (j < n)%nat -> o_ecc (os j) <> None /\ transit_interval k (os j) (rs j) (al j) (be j) /\ solved cp (os j) (rs j) (al j) (be j) /\
     al j + pad_of e / 2 < o_period (os j) / 2 /\ be j + pad_of e / 2 < o_period (os j) / 2) /\
     (pad_of e = 0 \/ forall j u v, (j < n)%nat -> consecutive (tts j) u v ->
       2 * al j + pad_of e < v - u /\ 2 * be j + pad_of e < v - u /\ v - u < 2 * (o_period (os j) - al j) /\ v - u < 2 * (o_period (os j) - be j))) \/
  (exists j, (j < n)%nat /\ o_ecc (os j) <> None /\ snd (solver_answer cp (os j) (rs j)) <> Fin 0) ->
  exists X Y f, get_light_curve (ld_init (Fin u1) (Fin u2)) (Some (ttv_api k (lift_cp cp) o)) (Some r) (Some t) (one_texp e) os' order (Some true) false = Ok X /\
    get_light_curve (ld_init (Fin u1) (Fin u2)) (Some (ttv_api k (lift_cp cp) o)) (Some r) (Some t) (one_texp e) os' order (Some false) false = Ok Y /\
    light_table n N X f /\ light_table n N Y f.
Proof. exact masked_ttv. Qed.
Print Assumptions C75_mask.
Example C75_example : exists o os near, disk_flux (3 / 10) (2 / 10) <> 0 /\ consts_ok ek /\
  ttv_init ek ex_x = Ok o /\ ttv_system ek 2 o os ex_tts /\ nearest_transits 2 ex_tts near /\
  elements 2 (vector 2 (fun _ => 1 / 10)) (fun _ => 1 / 10) /\ planet_values 2 (scalar (1 / 10)) (fun _ => 1 / 10) /\
  opt_values 2 (Some (scalar 1)) (fun _ => 1) /\ is_vector 3 (vector 3 INR) /\
  (forall m, (m < 3)%nat -> aget (vector 3 INR) (at_time m) = Fin (INR m)) /\
  (forall j, (j < 2)%nat -> o_ecc (os j) = None /\ 0 <= 1 / 10 /\ o_r_star (os j) + 1 / 10 < o_a (os j) /\ 0 <= o_sin_incl (os j)) /\
  consecutive (ex_tts 0) 2 (25 / 2) /\
  transits ek (os 0%nat) (1 / 10) (orbit_time os near 0 (INR 2)) /\ ~ transits ek (os 1%nat) (1 / 10) (orbit_time os near 1 (INR 2)).
Proof. exact ttv_light_example. Qed.
