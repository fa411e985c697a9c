(** * Secondary eclipses: property C91 *)
From Coq Require Import Reals List ZArith.
From Verif Require Import Num CoreOps Inst CoreFlux M_units M_kepler M_fin M_tensor M_simple M_limbdark M_secondary Spec_orbit Spec_params Spec_array Spec_light Spec_secondary Spec_depth
  L_eclipse Ex_orbit Ex_system Ex_eclipse.
Open Scope R_scope.

(** the depth of eclipses and transits of the light of both bodies *)
Theorem C91_depth : forall k n x xs os o, consts_ok k -> system k n x xs os -> kep_init k x = Ok o ->
  forall r rs, planet_values n r rs -> (forall j, (j < n)%nat -> 0 < rs j) ->
  forall cp u1 u2 v1 v2 s ss N t ts texp es osam order,
  disk_flux u1 u2 <> 0 -> disk_flux v1 v2 <> 0 -> one_each n r -> one_each n (o_r_star o) ->
  planet_values n s ss -> (forall j, (j < n)%nat -> 0 <= ss j) ->
  is_vector N t -> (forall m, (m < N)%nat -> aget t (at_time m) = Fin (ts m)) ->
  opt_exposures N texp es -> (forall m, (m < N)%nat -> 0 <= es m) -> (texp <> None -> exists nodes weights, stencil osam order = Ok (nodes, weights)) ->
  exists X f, secondary_light_curve k cp {| se_primary := ld_init (Fin u1) (Fin u2); se_secondary := ld_init (Fin v1) (Fin v2); se_ratio := s |}
      o r (Some t) texp osam order (Some false) false = Ok X /\ light_table n N X f /\
  forall m j, (m < N)%nat -> (j < n)%nat ->
    let during (Q : R * R * R -> Prop) := forall u, Rabs (u - ts m) <= es m / 2 -> Q (pos k (os j) Relative u None false) in
    let F := flux_ratio (ss j) (rs j) (o_r_star (os j)) in
    (during (fun P => vz P < 0 /\ apart P + rs j <= o_r_star (os j)) -> f m j = - (F / (1 + F))) /\
    (during (fun P => 0 < vz P /\ apart P + rs j <= o_r_star (os j)) -> u1 = 0 -> u2 = 0 -> f m j = - (rs j / o_r_star (os j) * (rs j / o_r_star (os j)) / (1 + F))) /\
    (during (fun P => o_r_star (os j) + rs j <= apart P) -> f m j = 0) /\
    (bright v1 v2 -> during (fun P => vz P <= 0) -> - (F / (1 + F)) <= f m j <= 0) /\
    (bright u1 u2 -> during (fun P => 0 <= vz P) -> - (1 / (1 + F)) <= f m j <= 0).
Proof. exact eclipse_law. Qed.
Print Assumptions C91_depth.

(** superior conjunction is at the transit time of the orbit with the bodies exchanged: the planet is behind the star *)
Theorem C91_conjunction : forall k (x : kargs R) o r, consts_ok k -> kep_init k x = Ok o -> physical o -> 0 < r -> sinw_of o <> 1 ->
  exists o', flip k o r = Ok o' /\ (o_ecc o = None -> o_t0 o' = o_t0 o + o_period o / 2) /\
  forall z : Z, let P := pos k o Relative (o_t0 o' + IZR z * o_period o) None false in
    apart P = Rabs (o_b o) * o_r_star o * ((1 + ecc_of o * sinw_of o) / (1 - ecc_of o * sinw_of o)) /\
    vz P = - (o_a o * (1 - ecc_of o * ecc_of o) / (1 - ecc_of o * sinw_of o) * o_sin_incl o) /\ 0 < o_a o * (1 - ecc_of o * ecc_of o) / (1 - ecc_of o * sinw_of o).
Proof. exact conjunction. Qed.
Print Assumptions C91_conjunction.

(** the exact time between transit and eclipse *)
Theorem C91_timing : forall k (x : kargs R) o r, consts_ok k -> kep_init k x = Ok o -> physical o -> 0 < r -> sinw_of o <> 1 -> sinw_of o <> -1 ->
  exists o' (z : Z), flip k o r = Ok o' /\
    let e := ecc_of o in let q := sqrt (1 - e * e) in
    o_t0 o' = o_t0 o + o_period o / 2 + o_period o / PI * (atan (e * cosw_of o / q) + e * cosw_of o * q / (1 - e * e * (sinw_of o * sinw_of o))) + IZR z * o_period o.
Proof. exact timing. Qed.
Print Assumptions C91_timing.

(** circular orbits: the eclipse mirrors the transit half a period later *)
Theorem C91_half_period : forall k (x : kargs R) o t, consts_ok k -> kep_init k x = Ok o -> physical o -> o_ecc o = None ->
  apart (pos k o Relative (t + o_period o / 2) None false) = apart (pos k o Relative t None false) /\
  vz (pos k o Relative (t + o_period o / 2) None false) = - vz (pos k o Relative t None false).
Proof. exact half_period. Qed.
Print Assumptions C91_half_period.

(** a circular orbit: transit at 2, eclipse at 7 *)
Example C91_example : exists os o, disk_flux (3 / 10) (2 / 10) <> 0 /\ bright (3 / 10) (2 / 10) /\ consts_ok ek /\
  system ek 1 (ex_sys_args 1 ex_bs) (fun j => ex_b_args (ex_bs j)) os /\ kep_init ek (ex_sys_args 1 ex_bs) = Ok o /\
  planet_values 1 (scalar (1 / 10)) (fun _ => 1 / 10) /\ one_each 1 (scalar (1 / 10)) /\ one_each 1 (o_r_star o) /\
  is_vector 3 (vector 3 ex_eclipse_times) /\ (forall m, (m < 3)%nat -> aget (vector 3 ex_eclipse_times) (at_time m) = Fin (ex_eclipse_times m)) /\
  opt_exposures 3 None (fun _ => 0) /\
  let P m := pos ek (os 0%nat) Relative (ex_eclipse_times m) None false in
  (0 < vz (P 0%nat) /\ apart (P 0%nat) + 1 / 10 <= o_r_star (os 0%nat)) /\ (vz (P 1%nat) < 0 /\ apart (P 1%nat) + 1 / 10 <= o_r_star (os 0%nat)).
Proof. exact eclipse_example. Qed.
Example C91_example_timing : exists o, consts_ok ek /\ kep_init ek ex_ecc_args = Ok o /\ physical o /\ sinw_of o <> 1 /\ sinw_of o <> -1 /\ ecc_of o = 3 / 10.
Proof. exact timing_example. Qed.
