(** * Light curves: properties C38-C45 *)
From Coq Require Import Reals List Bool Arith ZArith Lra Lia String.
From Coquelicot Require Import Coquelicot.
From Verif Require Import Num CoreOps Inst CoreFlux M_units M_kepler M_fin M_tensor M_simple M_ttv M_limbdark
  Spec_orbit Spec_params Spec_array Spec_simple Spec_light Ex_orbit Ex_system L_light1 L_light7 L_light8 L_light9.
From Verif Require Import L_simple2.
Import ListNotations.
Local Notation length := List.length.
Open Scope R_scope.

(** ** C38 *)
Theorem C38_coefficients : forall u1 u2, disk_flux u1 u2 <> 0 ->
  disk_flux u1 u2 = PI * (1 - u1 / 3 - u2 / 6) /\
  exists c0 c1 c2, ld_c (ld_init (Fin u1) (Fin u2)) = (Fin c0, Fin c1, Fin c2) /\
    forall mu, c0 + c1 * mu + c2 * (4 * (mu * mu) - 2) = intensity u1 u2 mu / disk_flux u1 u2.
Proof. exact coefficients. Qed.
Print Assumptions C38_coefficients.
(** a star without flux has no coefficients *)
Theorem C38_no_flux : forall u1 u2, disk_flux u1 u2 = 0 -> forall a b c, ld_c (ld_init (Fin u1) (Fin u2)) <> (Fin a, Fin b, Fin c).
Proof. exact no_flux. Qed.
Print Assumptions C38_no_flux.
Theorem C38_vector : forall u u1 u2, ash u = Ok [2%nat] -> aget u (at_planet 0) = Fin u1 -> aget u (at_planet 1) = Fin u2 ->
  ld_init_vector u = Ok (ld_init (Fin u1) (Fin u2)).
Proof. exact coefficient_vector. Qed.
Print Assumptions C38_vector.
Theorem C38_vector_length : forall u s, ash u = Ok s -> s <> [2%nat] -> ld_init_vector u = Err (if list_eq_dec Nat.eq_dec s [] then IndexErr else AssertErr).
Proof. exact coefficient_length. Qed.
Print Assumptions C38_vector_length.
Example C38_example : disk_flux (3 / 10) (2 / 10) <> 0 /\ disk_flux 2 2 = 0 /\ ash (vector 2 INR) = Ok [2%nat].
Proof. exact (conj disk_example (conj disk_zero_example eq_refl)). Qed.

(** ** C39 *)
Theorem C39_flux : forall u1 u2 b r los i bi ri li, disk_flux u1 u2 <> 0 ->
  aget b i = Fin bi -> aget r i = Fin ri -> aget los i = Fin li ->
  exists v, aget (compute_light_curve (ld_init (Fin u1) (Fin u2)) b r (Some los)) i = Fin v /\
    (1 + Rabs ri <= Rabs bi \/ li <= 0 -> v = 0) /\
    (0 < li -> 1 + Rabs bi <= Rabs ri -> v = -1) /\
    (bright u1 u2 -> -1 <= v <= 0) /\
    ((forall mu, 0 < mu <= 1 -> 0 < intensity u1 u2 mu) -> 0 < ri -> Rabs bi < 1 + ri -> 0 < li -> v < 0).
Proof. exact flux_properties. Qed.
Print Assumptions C39_flux.
(** the value is the light of the star that the planet leaves visible *)
Theorem C39_value : forall u1 u2 b r los i bi ri li, disk_flux u1 u2 <> 0 ->
  aget b i = Fin bi -> aget r i = Fin ri -> aget los i = Fin li -> 0 < li ->
  aget (compute_light_curve (ld_init (Fin u1) (Fin u2)) b r (Some los)) i =
    Fin (RInt (fun rho => intensity u1 u2 (sqrt (1 - rho * rho)) * (2 * PI - hidden_angle (Rabs bi) (Rabs ri) rho) * rho) 0 1 / disk_flux u1 u2 - 1).
Proof. exact flux_value. Qed.
Print Assumptions C39_value.
(** the point at distance rho from the star's centre in direction phi is
    covered exactly when phi is within half the hidden angle of the planet *)
Theorem C39_hidden : forall b r rho phi, 0 <= b -> 0 <= r -> 0 < rho -> 0 <= phi <= PI ->
  let d2 := (rho * cos phi - b) * (rho * cos phi - b) + rho * sin phi * (rho * sin phi) in
  (d2 < r * r -> phi <= hidden_angle b r rho / 2) /\ (phi < hidden_angle b r rho / 2 -> d2 <= r * r).
Proof. exact L_flux.hidden_spec. Qed.
Print Assumptions C39_hidden.
Theorem C39_physical : forall u1 u2, u1 + u2 <= 1 -> 0 <= u1 -> 0 <= u1 + 2 * u2 -> bright u1 u2 /\ 0 < disk_flux u1 u2.
Proof. exact kipping_bright. Qed.
Print Assumptions C39_physical.
Example C39_example : disk_flux (3 / 10) (2 / 10) <> 0 /\ bright (3 / 10) (2 / 10) /\ (forall mu, 0 < mu <= 1 -> 0 < intensity (3 / 10) (2 / 10) mu) /\
  0 < 1 / 10 /\ Rabs (1 / 2) < 1 + 1 / 10 /\ 1 + Rabs (1 / 10) <= Rabs 2.
Proof. exact bright_example. Qed.

(** ** C40 *)
Theorem C40_mask : forall u1 u2 A ld n P rst r rs N t ts texp es os order,
  disk_flux u1 u2 <> 0 -> answers A ld n P -> planet_numbers n (oa_r_star A) rst -> (forall j, (j < n)%nat -> 0 < rst j) ->
  elements n r rs -> (forall j, (j < n)%nat -> 0 <= rs j) -> is_vector N t -> (forall m, (m < N)%nat -> aget t (at_time m) = Fin (ts m)) ->
  opt_exposures N texp es -> (forall m, (m < N)%nat -> 0 <= es m) -> (0 <= os)%Z -> (order = 0 \/ order = 1 \/ order = 2)%Z ->
  finds_transits A ld n P rst rs N t ts texp es ->
  exists X Y f, get_light_curve (ld_init (Fin u1) (Fin u2)) (Some A) (Some r) (Some t) texp os order (Some true) ld = Ok X /\
    get_light_curve (ld_init (Fin u1) (Fin u2)) (Some A) (Some r) (Some t) texp os order (Some false) ld = Ok Y /\
    light_table n N X f /\ light_table n N Y f.
Proof. exact lc_masked. Qed.
Print Assumptions C40_mask.
(** KeplerianOrbit: circular orbits, eccentric orbits with a correct contact
    point solver, or a solver that reports failure *)
Theorem C40_kepler : forall u1 u2 k n (x : kargs tens) xs os o cp r rs N t ts e os' order,
  disk_flux u1 u2 <> 0 -> consts_ok k -> system k n x xs os -> kep_init k x = Ok o ->
  elements n r rs -> (forall j, (j < n)%nat -> 0 <= rs j) -> is_vector N t -> (forall m, (m < N)%nat -> aget t (at_time m) = Fin (ts m)) ->
  0 <= pad_of e -> (0 <= os')%Z -> (order = 0 \/ order = 1 \/ order = 2)%Z ->
  (forall j, (j < n)%nat -> ka_ecc (xs j) = None /\ o_r_star (os j) + rs j < o_a (os j) /\ 0 <= o_sin_incl (os j)) \/
  (exists al be, forall j, (j < n)%nat -> ka_ecc (xs j) <> None /\ transit_interval k (os j) (rs j) (al j) (be j) /\ solved cp (os j) (rs j) (al j) (be j) /\
     al j + pad_of e / 2 < o_period (os j) / 2 /\ be j + pad_of e / 2 < o_period (os j) / 2) \/
  (exists j, (j < n)%nat /\ o_ecc (os j) <> None /\ snd (solver_answer cp (os j) (rs j)) <> Fin 0) ->
  exists X Y f, get_light_curve (ld_init (Fin u1) (Fin u2)) (Some (kep_api k (lift_cp cp) o)) (Some r) (Some t) (one_texp e) os' order (Some true) false = Ok X /\
    get_light_curve (ld_init (Fin u1) (Fin u2)) (Some (kep_api k (lift_cp cp) o)) (Some r) (Some t) (one_texp e) os' order (Some false) false = Ok Y /\
    light_table n N X f /\ light_table n N Y f.
Proof. exact masked_kepler. Qed.
Print Assumptions C40_kepler.
(** one planet, one exposure time per observation *)
Theorem C40_each : forall u1 u2 k (x : kargs tens) xs os o cp r rs N t ts es os' order,
  disk_flux u1 u2 <> 0 -> consts_ok k -> system k 1 x xs os -> kep_init k x = Ok o ->
  elements 1 r rs -> 0 <= rs 0%nat -> is_vector N t -> (forall m, (m < N)%nat -> aget t (at_time m) = Fin (ts m)) ->
  (forall m, (m < N)%nat -> 0 <= es m) -> (0 <= os')%Z -> (order = 0 \/ order = 1 \/ order = 2)%Z ->
  ka_ecc (xs 0%nat) = None -> o_r_star (os 0%nat) + rs 0%nat < o_a (os 0%nat) -> 0 <= o_sin_incl (os 0%nat) ->
  exists X Y f, get_light_curve (ld_init (Fin u1) (Fin u2)) (Some (kep_api k (lift_cp cp) o)) (Some r) (Some t) (Some (vector N es)) os' order (Some true) false = Ok X /\
    get_light_curve (ld_init (Fin u1) (Fin u2)) (Some (kep_api k (lift_cp cp) o)) (Some r) (Some t) (Some (vector N es)) os' order (Some false) false = Ok Y /\
    light_table 1 N X f /\ light_table 1 N Y f.
Proof. exact masked_each. Qed.
Print Assumptions C40_each.
Theorem C40_simple : forall u1 u2 n x xs r rs N t ts e os' order,
  disk_flux u1 u2 <> 0 -> simple_system n x xs -> (forall j, (j < n)%nat -> simple_ok (xs j)) ->
  elements n r rs -> is_vector N t -> (forall m, (m < N)%nat -> aget t (at_time m) = Fin (ts m)) ->
  0 <= pad_of e -> (0 <= os')%Z -> (order = 0 \/ order = 1 \/ order = 2)%Z ->
  (forall j, (j < n)%nat -> 0 <= rs j /\ Rabs (dflt 0 (sa_b (xs j))) < 1 + dflt 0 (sa_ror (xs j)) /\
     Rabs (dflt 0 (sa_b (xs j))) * dflt 1 (sa_r_star (xs j)) <> dflt 1 (sa_r_star (xs j)) + rs j) ->
  exists X Y f, get_light_curve (ld_init (Fin u1) (Fin u2)) (Some (simple_api (simple_init x))) (Some r) (Some t) (one_texp e) os' order (Some true) false = Ok X /\
    get_light_curve (ld_init (Fin u1) (Fin u2)) (Some (simple_api (simple_init x))) (Some r) (Some t) (one_texp e) os' order (Some false) false = Ok Y /\
    light_table n N X f /\ light_table n N Y f.
Proof. exact masked_simple. Qed.
Print Assumptions C40_simple.
(** several planets and one exposure time per observation: with the default
    arguments the call fails, although without the mask it succeeds (C44) *)
Theorem C40_vector_texp_refuted : forall l k n N (x : kargs tens) xs os r rs es t cp os' order,
  consts_ok k -> system k n x xs os -> elements n r rs -> is_vector N t ->
  (forall j, (j < n)%nat -> ka_ecc (xs j) = None) -> (2 <= n)%nat -> N <> n -> N <> 1%nat ->
  exists o, kep_init k x = Ok o /\ get_light_curve l (Some (kep_api k (lift_cp cp) o)) (Some r) (Some t) (Some (vector N es)) os' order None false = Err ShapeErr.
Proof. exact masked_vector_texp. Qed.
Print Assumptions C40_vector_texp_refuted.
Example C40_example : exists os o, disk_flux (3 / 10) (2 / 10) <> 0 /\ consts_ok ek /\
  system ek 2 (ex_sys_args 2 ex_bs) (fun j => ex_b_args (ex_bs j)) os /\ kep_init ek (ex_sys_args 2 ex_bs) = Ok o /\
  elements 2 (vector 2 (fun _ => 1 / 10)) (fun _ => 1 / 10) /\ is_vector 3 (vector 3 INR) /\
  (forall m, (m < 3)%nat -> aget (vector 3 INR) (at_time m) = Fin (INR m)) /\
  (forall j, (j < 2)%nat -> ka_ecc (ex_b_args (ex_bs j)) = None /\ o_r_star (os j) + 1 / 10 < o_a (os j) /\ 0 <= o_sin_incl (os j)) /\
  transits ek (os 0%nat) (1 / 10) (INR 2) /\ ~ transits ek (os 1%nat) (1 / 10) (INR 2).
Proof. exact light_example. Qed.

(** ** C41 *)
Theorem C41_quadrature : forall os order x w, stencil os order = Ok (x, w) ->
  length x = length w /\ Nat.odd (length x) = true /\ (Z.of_nat (length x) = os \/ Z.of_nat (length x) = os + 1)%Z /\
  List.Forall (fun v => 0 < v) w /\ fold_right Rplus 0 w = 1 /\ List.Forall (fun v => -1/2 <= v <= 1/2) x /\ rev w = w /\
  (order = 0%Z \/ (2 <= os)%Z -> rev x = map Ropp x).
Proof. exact quadrature. Qed.
Print Assumptions C41_quadrature.
Theorem C41_orders : forall os order, (0 <= os)%Z -> (order = 0 \/ order = 1 \/ order = 2)%Z -> exists x w, stencil os order = Ok (x, w).
Proof. exact stencil_exists. Qed.
Print Assumptions C41_orders.
Theorem C41_errors : forall os order, (os < 0)%Z \/ ~ (order = 0 \/ order = 1 \/ order = 2)%Z -> stencil os order = Err ValueError.
Proof. exact stencil_error. Qed.
Print Assumptions C41_errors.
Theorem C41_linear : forall os order x w a0 a1 t e, stencil os order = Ok (x, w) -> order = 0%Z \/ (2 <= os)%Z -> 0 < e ->
  node_mean x w (fun s => a0 + a1 * s) t e = exposure_mean (fun s => a0 + a1 * s) t e.
Proof. exact quadrature_linear. Qed.
Print Assumptions C41_linear.
Theorem C41_cubic : forall os x w a0 a1 a2 a3 t e, stencil os 2 = Ok (x, w) -> (2 <= os)%Z -> 0 < e ->
  node_mean x w (cubic a0 a1 a2 a3) t e = exposure_mean (cubic a0 a1 a2 a3) t e.
Proof. exact quadrature_cubic. Qed.
Print Assumptions C41_cubic.
(** with one node the orders 1 and 2 look at the start of the exposure *)
Theorem C41_one_node_refuted : forall os order x w f t e, stencil os order = Ok (x, w) -> order <> 0%Z -> (os <= 1)%Z -> node_mean x w f t e = f (t - e / 2).
Proof. exact one_node. Qed.
Print Assumptions C41_one_node_refuted.
Example C41_example : exists x w, stencil 7 2 = Ok (x, w) /\ nth 1 w 0 = 4 / 18 /\ nth 1 x 0 = -1 / 3.
Proof. exact stencil_example. Qed.

(** ** C42 *)
Theorem C42_convergence : forall os order x w f L t e, stencil os order = Ok (x, w) -> 0 < e -> lipschitz_during f L t e ->
  (order = 0%Z -> Rabs (node_mean x w f t e - exposure_mean f t e) <= L * e / (4 * INR (length x))) /\
  (order = 1%Z -> (2 <= os)%Z -> Rabs (node_mean x w f t e - exposure_mean f t e) <= L * e / (4 * (INR (length x) - 1))) /\
  (order = 2%Z -> (2 <= os)%Z -> Rabs (node_mean x w f t e - exposure_mean f t e) <= 5 * L * e / (18 * (INR (length x) - 1))).
Proof. exact convergence. Qed.
Print Assumptions C42_convergence.
Example C42_example : lipschitz_during Rabs 1 0 1 /\ exists x w, stencil 7 0 = Ok (x, w).
Proof. exact lipschitz_example. Qed.

(** ** C43 *)
Theorem C43_ror : forall u1 u2 (delta b : tens) s i d bb,
  twf delta -> twf b -> (ash delta = Ok s \/ ash delta = Ok []) -> ash b = Ok s -> inside s i -> aget delta i = Fin d -> aget b i = Fin bb ->
  0 < d -> Rabs bb <= 1 -> 0 < disk_flux u1 u2 -> 0 < intensity u1 u2 (sqrt (1 - bb * bb)) ->
  exists R J v v', get_ror_from_approx_transit_depth (ld_init (Fin u1) (Fin u2)) delta b true = (R, Some J) /\
    get_ror_from_approx_transit_depth (ld_init (Fin u1) (Fin u2)) delta b false = (R, None) /\
    ash R = Ok s /\ ash J = Ok s /\ aget R i = Fin v /\ aget J i = Fin v' /\
    0 < v /\ depth u1 u2 bb v = d /\ (forall q, 0 < q -> depth u1 u2 bb q = d -> q = v) /\
    (forall g, (forall d', 0 < d' -> 0 < g d' /\ depth u1 u2 bb (g d') = d') -> is_derive g d v').
Proof. exact ror_from_depth. Qed.
Print Assumptions C43_ror.
(** a depth cannot be converted when the planet misses the star *)
Theorem C43_no_transit : forall u1 u2 d b, 1 < Rabs b -> approx_ror (Fin u1) (Fin u2) (Fin d) (Fin b) = (NaN, NaN).
Proof. exact ror_nan. Qed.
Print Assumptions C43_no_transit.
Example C43_example : twf (vector 3 (fun _ => 1 / 100)) /\ inside [3%nat] (at_time 1) /\ Rabs (1 / 2) <= 1 /\ 0 < disk_flux (3 / 10) (2 / 10) /\
  0 < intensity (3 / 10) (2 / 10) (sqrt (1 - 1 / 2 * (1 / 2))).
Proof. exact ror_example. Qed.

(** ** C44 *)
Theorem C44_flux : forall u1 u2 A ld n P rst r rs N t ts os order,
  disk_flux u1 u2 <> 0 -> answers A ld n P -> planet_numbers n (oa_r_star A) rst -> (forall j, (j < n)%nat -> rst j <> 0) ->
  elements n r rs -> is_vector N t -> (forall m, (m < N)%nat -> aget t (at_time m) = Fin (ts m)) ->
  exists X, get_light_curve (ld_init (Fin u1) (Fin u2)) (Some A) (Some r) (Some t) None os order (Some false) ld = Ok X /\
    light_table n N X (fun m j => flux_at u1 u2 (P j (ts m)) (rs j) (rst j)).
Proof. exact lc_plain. Qed.
Print Assumptions C44_flux.
Theorem C44_exposed : forall u1 u2 A ld n P rst r rs N t ts e es os order nodes weights,
  disk_flux u1 u2 <> 0 -> answers A ld n P -> planet_numbers n (oa_r_star A) rst -> (forall j, (j < n)%nat -> rst j <> 0) ->
  elements n r rs -> is_vector N t -> (forall m, (m < N)%nat -> aget t (at_time m) = Fin (ts m)) ->
  exposures N e es -> stencil os order = Ok (nodes, weights) ->
  exists X, get_light_curve (ld_init (Fin u1) (Fin u2)) (Some A) (Some r) (Some t) (Some e) os order (Some false) ld = Ok X /\
    light_table n N X (fun m j => node_mean nodes weights (fun s => flux_at u1 u2 (P j s) (rs j) (rst j)) (ts m) (es m)).
Proof. exact lc_exposed. Qed.
Print Assumptions C44_exposed.
Theorem C44_kepler : forall u1 u2 k n (x : kargs tens) xs os o cp r rs N t ts os' order,
  disk_flux u1 u2 <> 0 -> consts_ok k -> system k n x xs os -> kep_init k x = Ok o ->
  elements n r rs -> is_vector N t -> (forall m, (m < N)%nat -> aget t (at_time m) = Fin (ts m)) ->
  exists X, get_light_curve (ld_init (Fin u1) (Fin u2)) (Some (kep_api k cp o)) (Some r) (Some t) None os' order (Some false) false = Ok X /\
    light_table n N X (fun m j => flux_at u1 u2 (pos k (os j) Relative (ts m) None false) (rs j) (o_r_star (os j))).
Proof. exact lc_kepler. Qed.
Print Assumptions C44_kepler.
Theorem C44_kepler_exposed : forall u1 u2 k n (x : kargs tens) xs os o cp r rs N t ts e es os' order nodes weights,
  disk_flux u1 u2 <> 0 -> consts_ok k -> system k n x xs os -> kep_init k x = Ok o ->
  elements n r rs -> is_vector N t -> (forall m, (m < N)%nat -> aget t (at_time m) = Fin (ts m)) ->
  exposures N e es -> stencil os' order = Ok (nodes, weights) ->
  exists X, get_light_curve (ld_init (Fin u1) (Fin u2)) (Some (kep_api k cp o)) (Some r) (Some t) (Some e) os' order (Some false) false = Ok X /\
    light_table n N X (fun m j => node_mean nodes weights (fun s => flux_at u1 u2 (pos k (os j) Relative s None false) (rs j) (o_r_star (os j))) (ts m) (es m)).
Proof. exact lc_kepler_exposed. Qed.
Print Assumptions C44_kepler_exposed.
Theorem C44_simple : forall u1 u2 n x xs r rs N t ts os' order,
  disk_flux u1 u2 <> 0 -> simple_system n x xs -> (forall j, (j < n)%nat -> simple_ok (xs j)) ->
  elements n r rs -> is_vector N t -> (forall m, (m < N)%nat -> aget t (at_time m) = Fin (ts m)) ->
  exists X, get_light_curve (ld_init (Fin u1) (Fin u2)) (Some (simple_api (simple_init x))) (Some r) (Some t) None os' order (Some false) false = Ok X /\
    light_table n N X (fun m j => flux_at u1 u2 (spos (xs j) (ts m)) (rs j) (dflt 1 (sa_r_star (xs j)))).
Proof. exact lc_simple_plain. Qed.
Print Assumptions C44_simple.
Theorem C44_simple_exposed : forall u1 u2 n x xs r rs N t ts e es os' order nodes weights,
  disk_flux u1 u2 <> 0 -> simple_system n x xs -> (forall j, (j < n)%nat -> simple_ok (xs j)) ->
  elements n r rs -> is_vector N t -> (forall m, (m < N)%nat -> aget t (at_time m) = Fin (ts m)) ->
  exposures N e es -> stencil os' order = Ok (nodes, weights) ->
  exists X, get_light_curve (ld_init (Fin u1) (Fin u2)) (Some (simple_api (simple_init x))) (Some r) (Some t) (Some e) os' order (Some false) false = Ok X /\
    light_table n N X (fun m j => node_mean nodes weights (fun s => flux_at u1 u2 (spos (xs j) s) (rs j) (dflt 1 (sa_r_star (xs j)))) (ts m) (es m)).
Proof. exact lc_simple. Qed.
Print Assumptions C44_simple_exposed.
(** the orbits of the library answer positions for times of any shape *)
Theorem C44_kepler_answers : forall k n x xs os o cp, consts_ok k -> system k n x xs os -> kep_init k x = Ok o ->
  answers (kep_api k cp o) false n (fun j t => pos k (os j) Relative t None false) /\
  planet_numbers n (oa_r_star (kep_api k cp o)) (fun j => o_r_star (os j)).
Proof. exact L_light4.kepler_answers. Qed.
Print Assumptions C44_kepler_answers.
Theorem C44_mismatch : forall l A ld n P r s N t ts texp es os order,
  answers A ld n P -> ash r = Ok s -> prod s <> n -> (0 < N)%nat -> is_vector N t -> (forall m, (m < N)%nat -> aget t (at_time m) = Fin (ts m)) ->
  opt_exposures N texp es -> (0 <= os)%Z -> (order = 0 \/ order = 1 \/ order = 2)%Z ->
  get_light_curve l (Some A) (Some r) (Some t) texp os order (Some false) ld = Err ShapeErr.
Proof. exact lc_mismatch. Qed.
Print Assumptions C44_mismatch.
Example C44_example : exposures 3 (vector 3 (fun _ => 1 / 100)) (fun _ => 1 / 100) /\ exposures 3 (scalar (1 / 100)) (fun _ => 1 / 100) /\
  simple_system 2 (ex_simples (fun j => INR j / 2)) (fun j => ex_simple (INR j / 2)) /\ (forall j, (j < 2)%nat -> simple_ok (ex_simple (INR j / 2))) /\
  elements 2 (vector 2 (fun _ => 1 / 10)) (fun _ => 1 / 10) /\ prod [3%nat] <> 2%nat.
Proof. exact exposures_example. Qed.
Example C44_example_scalar : exists o, system ek 1 (ex_scalar_args 0) (fun _ => ex_b_args 0) (fun _ => o) /\
  o_ecc o = None /\ o_b o = 0 /\ o_period o = 10 /\ o_t0 o = 2 /\ o_r_star o = 1 /\ 2 < o_a o /\ 0 <= o_sin_incl o.
Proof. exact ex_scalar. Qed.

(** ** C45 *)
Theorem C45_missing : forall l orbit r t texp os order use ld, orbit = None \/ r = None \/ t = None ->
  get_light_curve l orbit r t texp os order use ld = Err ValueError.
Proof. exact lc_missing_error. Qed.
Print Assumptions C45_missing.
Theorem C45_message : forall (A : orbit_api) (r t : tens) orbit' r' t',
  missing_argument None r' t' = Some "orbit"%string /\ missing_argument (Some A) None t' = Some "r"%string /\
  missing_argument (Some A) (Some r) None = Some "t"%string /\
  (missing_argument orbit' r' t' = None <-> orbit' <> None /\ r' <> None /\ t' <> None).
Proof. exact lc_message. Qed.
Print Assumptions C45_message.
Theorem C45_order : forall l A n rs r N t e os order ld use inds, (os < 0)%Z \/ ~ (order = 0 \/ order = 1 \/ order = 2)%Z ->
  elements n r rs -> is_vector N t -> (forall r', planet_values n r' rs -> oa_in_transit A t r' (Some e) ld = Ok inds) -> (forall m, In m inds -> (m < N)%nat) ->
  get_light_curve l (Some A) (Some r) (Some t) (Some e) os order use ld = Err ValueError.
Proof. exact lc_bad_order_masked. Qed.
Print Assumptions C45_order.
Theorem C45_order_unmasked : forall l A r t e os order ld, (os < 0)%Z \/ ~ (order = 0 \/ order = 1 \/ order = 2)%Z ->
  get_light_curve l (Some A) (Some r) (Some t) (Some e) os order (Some false) ld = Err ValueError.
Proof. exact lc_bad_order. Qed.
Print Assumptions C45_order_unmasked.
Theorem C45_order_unused : forall l A r t os order os' order' use ld,
  get_light_curve l A r t None os order use ld = get_light_curve l A r t None os' order' use ld.
Proof. exact lc_order_unused. Qed.
Print Assumptions C45_order_unused.
Theorem C45_default_mask : forall l A r t texp os order,
  get_light_curve l A r t texp os order None true = get_light_curve l A r t texp os order (Some false) true /\
  get_light_curve l A r t texp os order None false = get_light_curve l A r t texp os order (Some true) false.
Proof. exact lc_default. Qed.
Print Assumptions C45_default_mask.
Theorem C45_forced : forall l r t texp os order,
  (forall k cp o, get_light_curve l (Some (kep_api k cp o)) (Some r) (Some t) texp os order (Some true) true = Err NotImpl) /\
  (forall k cp o, get_light_curve l (Some (ttv_api k cp o)) (Some r) (Some t) texp os order (Some true) true = Err NotImpl) /\
  (forall s, get_light_curve l (Some (simple_api s)) (Some r) (Some t) texp os order (Some true) true = Err NotImpl).
Proof. exact lc_forced. Qed.
Print Assumptions C45_forced.
Example C45_example : elements 2 (vector 2 (fun _ => 1 / 10)) (fun _ => 1 / 10) /\ is_vector 3 (vector 3 INR) /\ ~ (3 = 0 \/ 3 = 1 \/ 3 = 2)%Z.
Proof. exact order_example. Qed.
