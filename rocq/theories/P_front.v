(** * Once per orbit in front of the star: property C100 *)
From Coq Require Import Reals List ZArith.
From Verif Require Import Num CoreOps Inst CoreFlux M_units M_kepler M_fin M_tensor M_limbdark M_simple M_ttv Spec_orbit Spec_params Spec_array Spec_light Spec_sym Spec_front
  L_front Ex_orbit Ex_system Ex_back Ex_front.
Open Scope R_scope.

(** every orbit that is not seen from above or below is in front of the star during one interval per period, and behind it otherwise *)
Theorem C100_once : forall k (x : kargs R) o, consts_ok k -> kep_init k x = Ok o -> physical o -> 0 < o_sin_incl o ->
  exists ta tb, ta < tb < ta + o_period o /\ tb - ta = o_period o * front_share o /\ (sinw_of o <> -1 -> ta < o_t0 o < tb) /\
  forall t (z : Z), (ta + IZR z * o_period o < t < tb + IZR z * o_period o -> 0 < vz (pos k o Relative t None false)) /\
    (tb + IZR z * o_period o < t < ta + IZR (z + 1) * o_period o -> vz (pos k o Relative t None false) < 0) /\
    (t = ta + IZR z * o_period o \/ t = tb + IZR z * o_period o -> vz (pos k o Relative t None false) = 0).
Proof. exact front_once. Qed.
Print Assumptions C100_once.

(** the share of the time spent in front: half, less or more than half, as the periastron is on the plane of the sky, in front or behind *)
Theorem C100_share : forall o, physical o ->
  (ecc_of o * sinw_of o = 0 -> front_share o = 1 / 2) /\ (0 < ecc_of o * sinw_of o -> front_share o < 1 / 2) /\ (ecc_of o * sinw_of o < 0 -> 1 / 2 < front_share o) /\ 0 < front_share o < 1.
Proof. exact front_half. Qed.
Print Assumptions C100_share.

(** a circular orbit is in front within a quarter of a period of mid-transit *)
Theorem C100_circular : forall k (x : kargs R) o t (z : Z), consts_ok k -> kep_init k x = Ok o -> physical o -> o_ecc o = None -> 0 < o_sin_incl o ->
  let d := Rabs (t - (o_t0 o + IZR z * o_period o)) in
  (d < o_period o / 4 -> 0 < vz (pos k o Relative t None false)) /\ (o_period o / 4 < d <= o_period o / 2 -> vz (pos k o Relative t None false) < 0).
Proof. exact front_circular. Qed.
Print Assumptions C100_circular.

(** in front and on the line through the centre at right angles to the nodes only at t0 and whole periods from it *)
Theorem C100_conjunction : forall k (x : kargs R) o t, consts_ok k -> kep_init k x = Ok o -> physical o -> 0 < o_sin_incl o -> sinw_of o <> -1 ->
  (along (node_angle x) (pos k o Relative t None false) = 0 /\ 0 < vz (pos k o Relative t None false)) <-> exists z : Z, t = o_t0 o + IZR z * o_period o.
Proof. exact conjunction_once. Qed.
Print Assumptions C100_conjunction.

(** light curves are exactly zero for exposures wholly between two passages *)
Theorem C100_light : forall u1 u2 k n (x : kargs tens) xs os o cp r rs N t ts texp es osam order, disk_flux u1 u2 <> 0 -> consts_ok k -> system k n x xs os -> kep_init k x = Ok o ->
  (forall j, (j < n)%nat -> 0 < o_sin_incl (os j)) -> elements n r rs -> (forall j, (j < n)%nat -> 0 <= rs j) ->
  is_vector N t -> (forall m, (m < N)%nat -> aget t (at_time m) = Fin (ts m)) -> opt_exposures N texp es -> (forall m, (m < N)%nat -> 0 <= es m) ->
  (texp <> None -> exists nodes weights, stencil osam order = Ok (nodes, weights)) ->
  exists X f, get_light_curve (ld_init (Fin u1) (Fin u2)) (Some (kep_api k cp o)) (Some r) (Some t) texp osam order (Some false) false = Ok X /\ light_table n N X f /\
  forall j, (j < n)%nat -> exists ta tb, ta < tb < ta + o_period (os j) /\ tb - ta = o_period (os j) * front_share (os j) /\ (sinw_of (os j) <> -1 -> ta < o_t0 (os j) < tb) /\
    forall m (z : Z), (m < N)%nat -> tb + IZR z * o_period (os j) <= ts m - es m / 2 -> ts m + es m / 2 <= ta + IZR (z + 1) * o_period (os j) -> f m j = 0.
Proof. exact light_once. Qed.
Print Assumptions C100_light.

Example C100_example : exists o, consts_ok ek /\ kep_init ek (ex_back_args 1 2) = Ok o /\ physical o /\ 0 < o_sin_incl o /\ sinw_of o <> -1 /\ 0 < ecc_of o * sinw_of o /\
  o_t0 o = 2 /\ o_period o = 10.
Proof. exact front_example. Qed.
Example C100_example_light : exists os o, disk_flux (3 / 10) (2 / 10) <> 0 /\ consts_ok ek /\
  system ek 2 (ex_back_sys 2 1 2) (fun _ => ex_back_args 1 2) os /\ kep_init ek (ex_back_sys 2 1 2) = Ok o /\
  (forall j, (j < 2)%nat -> 0 < o_sin_incl (os j)) /\ elements 2 (vector 2 (fun _ => 1 / 10)) (fun _ => 1 / 10) /\
  is_vector 3 (vector 3 INR) /\ (forall m, (m < 3)%nat -> aget (vector 3 INR) (at_time m) = Fin (INR m)) /\
  opt_exposures 3 (one_texp (Some (1 / 4))) (fun _ => 1 / 4) /\ (exists nodes weights, stencil 7 2 = Ok (nodes, weights)).
Proof. exact front_light_example. Qed.
