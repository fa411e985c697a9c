(** * Impact parameters no orbit can have: property C78 *)
From Coq Require Import Reals List Bool Arith ZArith Sorted.
From Verif Require Import Num CoreOps Inst CoreFlux M_units M_kepler M_fin M_tensor M_limbdark
  Spec_orbit Spec_params Spec_array Spec_light Spec_reach Ex_orbit Ex_system Ex_reach L_reach L_reach2 L_reach3.
Import ListNotations.
Open Scope R_scope.

(** ** C78 *)
(** the constructor accepts them; inclination and its sine are NaN, everything
    else is as for the same orbit seen edge on *)
Theorem C78_accepted : forall k (x : kargs R) o b, consts_ok k -> unreachable k x o b ->
  exists fo, kep_init k (fin_args x) = Ok fo /\
    o_b fo = Fin b /\ o_cos_incl fo = Fin (b * o_r_star o / separation o) /\ o_incl fo = NaN /\ o_sin_incl fo = NaN /\
    o_a fo = Fin (o_a o) /\ o_period fo = Fin (o_period o) /\ o_rho_star fo = Fin (o_rho_star o) /\ o_r_star fo = Fin (o_r_star o) /\
    o_m_star fo = Fin (o_m_star o) /\ o_m_planet fo = Fin (o_m_planet o) /\ o_t0 fo = Fin (o_t0 o) /\ o_tper fo = Fin (o_tper o) /\
    o_ecc fo = option_map (map_eccd Fin) (o_ecc o) /\ o_Omega fo = option_map (map_omgd Fin) (o_Omega o).
Proof. exact reach_attributes. Qed.
Print Assumptions C78_accepted.
(** all other impact parameters give an ordinary orbit *)
Theorem C78_domain : forall k (x : kargs R) o b, consts_ok k -> ka_b x = Some b -> ka_incl x = None -> ka_duration x = None ->
  kep_init k (set_incl x (Some 0) None) = Ok o -> physical o -> Rabs b * o_r_star o <= separation o ->
  exists o', kep_init k x = Ok o' /\ physical o' /\ kep_init k (fin_args x) = Ok (fin_orbit o') /\
    o_cos_incl o' = b * o_r_star o / separation o.
Proof. exact reach_domain. Qed.
Print Assumptions C78_domain.
(** the planet has a place on the sky but no place along the line of sight *)
Theorem C78_position : forall k (x : kargs R) o b fo t, consts_ok k -> unreachable k x o b -> kep_init k (fin_args x) = Ok fo ->
  let p := pos k o Relative t None false in let y := vz p * (b * o_r_star o / separation o) in
  pos k fo Relative (Fin t) None false = (Fin (vx p + sinO_of o * y), Fin (vy p - cosO_of o * y), NaN).
Proof. exact reach_position. Qed.
Print Assumptions C78_position.
(** and no radial velocity, unless the semi-amplitude is given *)
Theorem C78_velocity : forall k (x : kargs R) o b fo t, consts_ok k -> unreachable k x o b -> kep_init k (fin_args x) = Ok fo ->
  (forall u v, get_radial_velocity k fo (kep_warp fo) (Fin t) None u = Ok v -> v = NaN) /\
  (forall K u, get_radial_velocity k fo (kep_warp fo) (Fin t) (Some (Fin K)) u = rmap Fin (get_radial_velocity k o (kep_warp o) t (Some K) u)) /\
  forall bd, snd (vel fo bd (Fin t)) = NaN.
Proof. exact reach_velocity. Qed.
Print Assumptions C78_velocity.
(** no transits, and no effect on the other planets of the system *)
Theorem C78_light : forall u1 u2 k n (x : kargs tens) xs os bs o cp r rs N t ts os' order,
  disk_flux u1 u2 <> 0 -> consts_ok k -> mixed_system k n x xs os bs -> kep_init k x = Ok o ->
  elements n r rs -> is_vector N t -> (forall m, (m < N)%nat -> aget t (at_time m) = Fin (ts m)) ->
  exists X, get_light_curve (ld_init (Fin u1) (Fin u2)) (Some (kep_api k cp o)) (Some r) (Some t) None os' order (Some false) false = Ok X /\
    light_table n N X (fun m j => match bs j with
      | Some _ => 0
      | None => flux_at u1 u2 (pos k (os j) Relative (ts m) None false) (rs j) (o_r_star (os j))
      end).
Proof. exact reach_light. Qed.
Print Assumptions C78_light.
(** the same with exposure times *)
Theorem C78_exposed : forall u1 u2 k n (x : kargs tens) xs os bs o cp r rs N t ts e es os' order nodes weights,
  disk_flux u1 u2 <> 0 -> consts_ok k -> mixed_system k n x xs os bs -> kep_init k x = Ok o ->
  elements n r rs -> is_vector N t -> (forall m, (m < N)%nat -> aget t (at_time m) = Fin (ts m)) ->
  exposures N e es -> stencil os' order = Ok (nodes, weights) ->
  exists X, get_light_curve (ld_init (Fin u1) (Fin u2)) (Some (kep_api k cp o)) (Some r) (Some t) (Some e) os' order (Some false) false = Ok X /\
    light_table n N X (fun m j => match bs j with
      | Some _ => 0
      | None => node_mean nodes weights (fun s => flux_at u1 u2 (pos k (os j) Relative s None false) (rs j) (o_r_star (os j))) (ts m) (es m)
      end).
Proof. exact reach_exposed. Qed.
Print Assumptions C78_exposed.
(** in_transit ignores the planet *)
Theorem C78_in_transit : forall k n N (x : kargs tens) xs os bs r rs te es t ts cp,
  consts_ok k -> mixed_system k n x xs os bs -> planet_values n r rs -> opt_values n te es -> (forall j, (j < n)%nat -> 0 <= es j) ->
  is_vector N t -> (forall m, (m < N)%nat -> aget t (at_time m) = Fin (ts m)) ->
  (forall j, (j < n)%nat -> ka_ecc (xs j) = None) ->
  (forall j, (j < n)%nat -> bs j = None -> 0 <= rs j /\ o_r_star (os j) + rs j < o_a (os j) /\ 0 <= o_sin_incl (os j)) ->
  exists o l, kep_init k x = Ok o /\
    kep_in_transit o (kep_warp o) (lift_cp cp) t r te false = Ok l /\ StronglySorted lt l /\
    forall m, In m l <-> (m < N)%nat /\ exists j s, (j < n)%nat /\ bs j = None /\ Rabs (s - ts m) <= es j / 2 /\ transits k (os j) (rs j) s.
Proof. exact reach_in_transit. Qed.
Print Assumptions C78_in_transit.
(** eccentric orbits: whatever the contact point solver answers for the
    planet, no transit of the others is missed *)
Theorem C78_in_transit_eccentric : forall k n N (x : kargs tens) xs os bs r rs te es t ts cp al be,
  consts_ok k -> mixed_system k n x xs os bs -> planet_values n r rs -> opt_values n te es -> (forall j, (j < n)%nat -> 0 <= es j) ->
  is_vector N t -> (forall m, (m < N)%nat -> aget t (at_time m) = Fin (ts m)) ->
  (forall j, (j < n)%nat -> bs j = None -> ka_ecc (xs j) <> None /\ transit_interval k (os j) (rs j) (al j) (be j) /\ solved cp (os j) (rs j) (al j) (be j) /\
     al j + es j / 2 < o_period (os j) / 2 /\ be j + es j / 2 < o_period (os j) / 2) ->
  exists o l, kep_init k x = Ok o /\ kep_in_transit o (kep_warp o) (lift_cp cp) t r te false = Ok l /\ (forall m, In m l -> (m < N)%nat) /\
    forall m j s, (m < N)%nat -> (j < n)%nat -> bs j = None -> Rabs (s - ts m) <= es j / 2 -> transits k (os j) (rs j) s -> In m l.
Proof. exact reach_in_transit_ecc. Qed.
Print Assumptions C78_in_transit_eccentric.
(** hence the light curve may be computed in transit only *)
Theorem C78_masked : forall u1 u2 k n (x : kargs tens) xs os bs o cp r rs N t ts e os' order,
  disk_flux u1 u2 <> 0 -> consts_ok k -> mixed_system k n x xs os bs -> kep_init k x = Ok o ->
  elements n r rs -> (forall j, (j < n)%nat -> 0 <= rs j) -> is_vector N t -> (forall m, (m < N)%nat -> aget t (at_time m) = Fin (ts m)) ->
  0 <= pad_of e -> (0 <= os')%Z -> (order = 0 \/ order = 1 \/ order = 2)%Z ->
  ((forall j, (j < n)%nat -> ka_ecc (xs j) = None) /\ (forall j, (j < n)%nat -> bs j = None -> o_r_star (os j) + rs j < o_a (os j) /\ 0 <= o_sin_incl (os j))) \/
  (exists al be, forall j, (j < n)%nat -> bs j = None -> ka_ecc (xs j) <> None /\ transit_interval k (os j) (rs j) (al j) (be j) /\ solved cp (os j) (rs j) (al j) (be j) /\
     al j + pad_of e / 2 < o_period (os j) / 2 /\ be j + pad_of e / 2 < o_period (os j) / 2) ->
  exists X Y f, get_light_curve (ld_init (Fin u1) (Fin u2)) (Some (kep_api k (lift_cp cp) o)) (Some r) (Some t) (one_texp e) os' order (Some true) false = Ok X /\
    get_light_curve (ld_init (Fin u1) (Fin u2)) (Some (kep_api k (lift_cp cp) o)) (Some r) (Some t) (one_texp e) os' order (Some false) false = Ok Y /\
    light_table n N X f /\ light_table n N Y f.
Proof. exact reach_masked. Qed.
Print Assumptions C78_masked.
Example C78_example_planet : exists o, unreachable ek (ex_b_args 100) o 100 /\ o_ecc o = None.
Proof. exact ex_unreachable. Qed.
Example C78_example : exists os o, consts_ok ek /\ mixed_system ek 2 (ex_sys_args 2 ex_rb) (fun j => ex_b_args (ex_rb j)) os ex_unreached /\
  kep_init ek (ex_sys_args 2 ex_rb) = Ok o /\ (forall j, (j < 2)%nat -> ka_ecc (ex_b_args (ex_rb j)) = None) /\
  (forall j, (j < 2)%nat -> ex_unreached j = None -> o_r_star (os j) + 1 / 10 < o_a (os j) /\ 0 <= o_sin_incl (os j)) /\
  is_vector 3 (vector 3 INR) /\ (forall m, (m < 3)%nat -> aget (vector 3 INR) (at_time m) = Fin (INR m)).
Proof. exact reach_example. Qed.
