(** * Secondary eclipses: property C46 *)
From Coq Require Import Reals List Bool Arith ZArith Lra Lia.
From Verif Require Import Num CoreOps Inst CoreFlux M_units M_kepler M_fin M_tensor M_simple M_ttv M_limbdark M_secondary
  Spec_orbit Spec_params Spec_array Spec_light Spec_secondary Ex_orbit Ex_system L_second2.
Import ListNotations.
Open Scope R_scope.

(** ** C46 *)
Theorem C46_flux : forall k n x xs os o, consts_ok k -> system k n x xs os -> kep_init k x = Ok o ->
  forall r rs, planet_values n r rs -> (forall j, (j < n)%nat -> 0 < rs j) ->
  forall cp u1 u2 v1 v2 s ss N t ts os' order,
  disk_flux u1 u2 <> 0 -> disk_flux v1 v2 <> 0 -> one_each n r -> one_each n (o_r_star o) ->
  planet_values n s ss -> (forall j, (j < n)%nat -> 0 <= ss j) ->
  is_vector N t -> (forall m, (m < N)%nat -> aget t (at_time m) = Fin (ts m)) ->
  exists X, secondary_light_curve k cp {| se_primary := ld_init (Fin u1) (Fin u2); se_secondary := ld_init (Fin v1) (Fin v2); se_ratio := s |}
      o r (Some t) None os' order (Some false) false = Ok X /\
    light_table n N X (fun m j => let P := pos k (os j) Relative (ts m) None false in
      mixture (flux_ratio (ss j) (rs j) (o_r_star (os j))) (flux_at u1 u2 P (rs j) (o_r_star (os j))) (flux_at v1 v2 (opposite P) (o_r_star (os j)) (rs j))).
Proof. exact second_plain. Qed.
Print Assumptions C46_flux.
Theorem C46_exposed : forall k n x xs os o, consts_ok k -> system k n x xs os -> kep_init k x = Ok o ->
  forall r rs, planet_values n r rs -> (forall j, (j < n)%nat -> 0 < rs j) ->
  forall cp u1 u2 v1 v2 s ss N t ts e es os' order nodes weights,
  disk_flux u1 u2 <> 0 -> disk_flux v1 v2 <> 0 -> one_each n r -> one_each n (o_r_star o) ->
  planet_values n s ss -> (forall j, (j < n)%nat -> 0 <= ss j) ->
  is_vector N t -> (forall m, (m < N)%nat -> aget t (at_time m) = Fin (ts m)) -> exposures N e es -> stencil os' order = Ok (nodes, weights) ->
  exists X, secondary_light_curve k cp {| se_primary := ld_init (Fin u1) (Fin u2); se_secondary := ld_init (Fin v1) (Fin v2); se_ratio := s |}
      o r (Some t) (Some e) os' order (Some false) false = Ok X /\
    light_table n N X (fun m j => let P u := pos k (os j) Relative u None false in
      mixture (flux_ratio (ss j) (rs j) (o_r_star (os j)))
        (node_mean nodes weights (fun u => flux_at u1 u2 (P u) (rs j) (o_r_star (os j))) (ts m) (es m))
        (node_mean nodes weights (fun u => flux_at v1 v2 (opposite (P u)) (o_r_star (os j)) (rs j)) (ts m) (es m))).
Proof. exact second_exposed. Qed.
Print Assumptions C46_exposed.
(** what the number says about a single instant *)
Theorem C46_limits : forall u1 u2 v1 v2 f P r rst, disk_flux u1 u2 <> 0 -> disk_flux v1 v2 <> 0 -> 0 <= f -> 0 < r -> 0 < rst ->
  let a := flux_at u1 u2 P r rst in let b := flux_at v1 v2 (opposite P) rst r in
  (a = 0 \/ b = 0) /\ Rmin a b <= mixture f a b <= Rmax a b /\
  (bright u1 u2 -> bright v1 v2 -> -1 <= mixture f a b <= 0) /\
  (~ overlaps P r rst -> ~ overlaps (opposite P) rst r -> mixture f a b = 0) /\
  mixture 0 a b = a.
Proof. exact eclipse_limits. Qed.
Print Assumptions C46_limits.
(** any mask, any exposure time: the two light curves are combined *)
Theorem C46_combination : forall k n x xs os o, consts_ok k -> system k n x xs os -> kep_init k x = Ok o ->
  forall r rs, planet_values n r rs -> (forall j, (j < n)%nat -> 0 < rs j) ->
  forall cp S ss N t texp os' order use ld X1 X2 f1 f2 o2,
  planet_values n (se_ratio S) ss -> (forall j, (j < n)%nat -> 0 <= ss j) -> flip k o r = Ok o2 ->
  get_light_curve (se_primary S) (Some (kep_api k cp o)) (Some r) t texp os' order use ld = Ok X1 -> light_table n N X1 f1 ->
  get_light_curve (se_secondary S) (Some (kep_api k cp o2)) (Some (o_r_star o)) t texp os' order use ld = Ok X2 -> light_table n N X2 f2 ->
  exists X, secondary_light_curve k cp S o r t texp os' order use ld = Ok X /\
    light_table n N X (fun m j => mixture (flux_ratio (ss j) (rs j) (o_r_star (os j))) (f1 m j) (f2 m j)).
Proof. exact mixed. Qed.
Print Assumptions C46_combination.
(** circular orbits: the default mask changes nothing *)
Theorem C46_default_mask : forall k n x xs os o, consts_ok k -> system k n x xs os -> kep_init k x = Ok o ->
  forall r rs, planet_values n r rs -> (forall j, (j < n)%nat -> 0 < rs j) ->
  forall cp u1 u2 v1 v2 s ss N t ts e os' order,
  disk_flux u1 u2 <> 0 -> disk_flux v1 v2 <> 0 -> one_each n r -> one_each n (o_r_star o) ->
  planet_values n s ss -> (forall j, (j < n)%nat -> 0 <= ss j) ->
  is_vector N t -> (forall m, (m < N)%nat -> aget t (at_time m) = Fin (ts m)) ->
  0 <= pad_of e -> (0 <= os')%Z -> (order = 0 \/ order = 1 \/ order = 2)%Z ->
  (forall j, (j < n)%nat -> ka_ecc (xs j) = None /\ o_r_star (os j) + rs j < o_a (os j) /\ 0 <= o_sin_incl (os j)) ->
  exists X Y f, secondary_light_curve k (lift_cp cp) {| se_primary := ld_init (Fin u1) (Fin u2); se_secondary := ld_init (Fin v1) (Fin v2); se_ratio := s |}
      o r (Some t) (one_texp e) os' order None false = Ok X /\
    secondary_light_curve k (lift_cp cp) {| se_primary := ld_init (Fin u1) (Fin u2); se_secondary := ld_init (Fin v1) (Fin v2); se_ratio := s |}
      o r (Some t) (one_texp e) os' order (Some false) false = Ok Y /\
    light_table n N X f /\ light_table n N Y f.
Proof. exact second_masked. Qed.
Print Assumptions C46_default_mask.
(** several planets around a star with one radius: the call fails *)
Theorem C46_many_refuted : forall k n x xs os o, consts_ok k -> system k n x xs os -> kep_init k x = Ok o ->
  forall r rs, planet_values n r rs -> (forall j, (j < n)%nat -> 0 < rs j) ->
  forall cp u1 u2 v1 v2 s N t ts texp es os' order,
  disk_flux u1 u2 <> 0 -> one_each n r -> (2 <= n)%nat -> ash (o_r_star o) = Ok [] -> (0 < N)%nat ->
  is_vector N t -> (forall m, (m < N)%nat -> aget t (at_time m) = Fin (ts m)) ->
  opt_exposures N texp es -> (0 <= os')%Z -> (order = 0 \/ order = 1 \/ order = 2)%Z ->
  secondary_light_curve k cp {| se_primary := ld_init (Fin u1) (Fin u2); se_secondary := ld_init (Fin v1) (Fin v2); se_ratio := s |}
    o r (Some t) texp os' order (Some false) false = Err ShapeErr.
Proof. exact second_many. Qed.
Print Assumptions C46_many_refuted.
(** the constructor looks at the first two coefficients only *)
Theorem C46_coefficients : forall up us s dp ds, ash up = Ok [dp] -> ash us = Ok [ds] -> (2 <= dp)%nat -> (2 <= ds)%nat ->
  secondary_init up us s = Ok {| se_primary := ld_init (aget up (at_planet 0)) (aget up (at_planet 1));
                                 se_secondary := ld_init (aget us (at_planet 0)) (aget us (at_planet 1)); se_ratio := s |}.
Proof. exact coefficients_of. Qed.
Print Assumptions C46_coefficients.
(** fewer than two coefficients for one of the bodies are refused *)
Theorem C46_too_few : forall up us s dp ds, ash up = Ok [dp] -> ash us = Ok [ds] -> (dp < 2 \/ ds < 2)%nat -> secondary_init up us s = Err IndexErr.
Proof. exact coefficients_few. Qed.
Print Assumptions C46_too_few.
Example C46_example : exists os o, disk_flux (3 / 10) (2 / 10) <> 0 /\ bright (3 / 10) (2 / 10) /\ consts_ok ek /\
  system ek 1 (ex_sys_args 1 ex_bs) (fun j => ex_b_args (ex_bs j)) os /\ kep_init ek (ex_sys_args 1 ex_bs) = Ok o /\
  planet_values 1 (scalar (1 / 10)) (fun _ => 1 / 10) /\ one_each 1 (scalar (1 / 10)) /\ one_each 1 (o_r_star o) /\
  is_vector 3 (vector 3 INR) /\ (forall m, (m < 3)%nat -> aget (vector 3 INR) (at_time m) = Fin (INR m)) /\
  (forall j, (j < 1)%nat -> ka_ecc (ex_b_args (ex_bs j)) = None /\ o_r_star (os j) + 1 / 10 < o_a (os j) /\ 0 <= o_sin_incl (os j)).
Proof. exact second_example. Qed.
Example C46_example_many : exists os o, consts_ok ek /\ system ek 2 (ex_sys_args 2 ex_bs) (fun j => ex_b_args (ex_bs j)) os /\
  kep_init ek (ex_sys_args 2 ex_bs) = Ok o /\ ash (o_r_star o) = Ok [] /\
  planet_values 2 (vector 2 (fun _ => 1 / 10)) (fun _ => 1 / 10) /\ one_each 2 (vector 2 (fun _ => 1 / 10)).
Proof. exact many_example. Qed.
