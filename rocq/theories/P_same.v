(** * A circular KeplerianOrbit and a SimpleTransitOrbit with the same duration: property C95 *)
From Coq Require Import Reals List ZArith.
From Verif Require Import Num CoreOps Inst CoreFlux M_units M_kepler M_fin M_tensor M_limbdark M_simple
  Spec_orbit Spec_params Spec_array Spec_light Spec_simple Spec_depth Spec_lip Spec_same L_simple2 L_same Ex_orbit Ex_system Ex_same.
Import ListNotations.
Open Scope R_scope.

(** the disks overlap at the same times; the straight path is nearer the centre
    of the star in between, by at most a term of second order in duration over
    period; the paths agree at mid-transit and at the contacts *)
Theorem C95_geometry : forall k (x : kargs R) o s, consts_ok k -> kep_init k x = Ok o -> physical o -> same_transit x s ->
  let Q t := pos k o Relative t None false in
  let b := dflt 0 (sa_b s) in let r := dflt 1 (sa_r_star s) in let ror := dflt 0 (sa_ror s) in let D := sa_duration s in
  (forall t, 0 < sz s t <-> 0 < vz (Q t) /\ apart (Q t) < r * (1 + ror)) /\
  (forall t, 0 < sz s t -> sdist s t <= apart (Q t) <= sdist s t + half_chord s * bend s) /\
  (forall (m : Z) t, 0 < Rabs (t - smid s m) < D / 2 -> sdist s t < apart (Q t)) /\
  (forall m : Z, apart (Q (smid s m)) = b * r /\ sdist s (smid s m) = b * r) /\
  (forall m : Z, apart (Q (smid s m - D / 2)) = r * (1 + ror) /\ apart (Q (smid s m + D / 2)) = r * (1 + ror) /\
                 sdist s (smid s m - D / 2) = r * (1 + ror) /\ sdist s (smid s m + D / 2) = r * (1 + ror)).
Proof. exact (fun k x o s kok H ph sm => same_geometry k x o s kok H ph sm). Qed.
Print Assumptions C95_geometry.

(** SimpleTransitOrbit never gives the shallower light curve *)
Theorem C95_deeper : forall u1 u2 k n (x : kargs tens) xs os o cp y ys r rs N t ts texp es osam order,
  disk_flux u1 u2 <> 0 -> consts_ok k -> system k n x xs os -> kep_init k x = Ok o -> simple_system n y ys ->
  (forall j, (j < n)%nat -> same_transit (xs j) (ys j)) ->
  elements n r rs -> (forall j, (j < n)%nat -> 0 <= rs j <= dflt 0 (sa_ror (ys j)) * dflt 1 (sa_r_star (ys j))) ->
  is_vector N t -> (forall m, (m < N)%nat -> aget t (at_time m) = Fin (ts m)) ->
  opt_exposures N texp es -> (texp <> None -> exists nodes weights, stencil osam order = Ok (nodes, weights)) ->
  bright u1 u2 -> darkening u1 u2 ->
  deeper n N (get_light_curve (ld_init (Fin u1) (Fin u2)) (Some (kep_api k cp o)) (Some r) (Some t) texp osam order (Some false) false)
    (get_light_curve (ld_init (Fin u1) (Fin u2)) (Some (simple_api (simple_init y))) (Some r) (Some t) texp osam order (Some false) false).
Proof. intros. eapply same_deeper; eassumption. Qed.
Print Assumptions C95_deeper.

(** the two light curves differ by a term of second order in duration over period *)
Theorem C95_close : forall u1 u2 k n (x : kargs tens) xs os o cp y ys r rs N t ts texp es osam order,
  disk_flux u1 u2 <> 0 -> consts_ok k -> system k n x xs os -> kep_init k x = Ok o -> simple_system n y ys ->
  (forall j, (j < n)%nat -> same_transit (xs j) (ys j)) ->
  elements n r rs -> (forall j, (j < n)%nat -> 0 <= rs j <= dflt 0 (sa_ror (ys j)) * dflt 1 (sa_r_star (ys j))) ->
  is_vector N t -> (forall m, (m < N)%nat -> aget t (at_time m) = Fin (ts m)) ->
  opt_exposures N texp es -> (texp <> None -> exists nodes weights, stencil osam order = Ok (nodes, weights)) ->
  close_tables n N (get_light_curve (ld_init (Fin u1) (Fin u2)) (Some (kep_api k cp o)) (Some r) (Some t) texp osam order (Some false) false)
    (get_light_curve (ld_init (Fin u1) (Fin u2)) (Some (simple_api (simple_init y))) (Some r) (Some t) texp osam order (Some false) false)
    (fun m j => weight u1 u2 * (4 * (rs j / dflt 1 (sa_r_star (ys j))) * (half_chord (ys j) / dflt 1 (sa_r_star (ys j))) * bend (ys j))).
Proof. intros. eapply same_close; eassumption. Qed.
Print Assumptions C95_close.

(** they are equal at mid-transit and both zero out of transit *)
Theorem C95_equal : forall u1 u2 k n (x : kargs tens) xs os o cp y ys r rs N t ts texp es osam order,
  disk_flux u1 u2 <> 0 -> consts_ok k -> system k n x xs os -> kep_init k x = Ok o -> simple_system n y ys ->
  (forall j, (j < n)%nat -> same_transit (xs j) (ys j)) ->
  elements n r rs -> (forall j, (j < n)%nat -> 0 <= rs j <= dflt 0 (sa_ror (ys j)) * dflt 1 (sa_r_star (ys j))) ->
  is_vector N t -> (forall m, (m < N)%nat -> aget t (at_time m) = Fin (ts m)) ->
  opt_exposures N texp es -> (texp <> None -> exists nodes weights, stencil osam order = Ok (nodes, weights)) ->
  texp = None ->
  exists X Y f g, (get_light_curve (ld_init (Fin u1) (Fin u2)) (Some (kep_api k cp o)) (Some r) (Some t) texp osam order (Some false) false) = Ok X /\
    (get_light_curve (ld_init (Fin u1) (Fin u2)) (Some (simple_api (simple_init y))) (Some r) (Some t) texp osam order (Some false) false) = Ok Y /\ light_table n N X f /\ light_table n N Y g /\
  forall m j, (m < N)%nat -> (j < n)%nat ->
    ((exists z, ts m = smid (ys j) z) -> f m j = g m j) /\
    ((forall z, sa_duration (ys j) / 2 <= Rabs (ts m - smid (ys j) z)) -> f m j = 0 /\ g m j = 0).
Proof. intros. eapply same_equal; eassumption. Qed.
Print Assumptions C95_equal.

Example C95_example : exists os o, consts_ok ek /\ system ek 2 ex_same_sys (fun j => ex_same_args (INR j)) os /\ kep_init ek ex_same_sys = Ok o /\
  simple_system 2 ex_same_simples (fun j => ex_same_simple (INR j)) /\ (forall j, (j < 2)%nat -> same_transit (ex_same_args (INR j)) (ex_same_simple (INR j))) /\
  disk_flux (3 / 10) (2 / 10) <> 0 /\ bright (3 / 10) (2 / 10) /\ darkening (3 / 10) (2 / 10) /\
  elements 2 (vector 2 (fun _ => 2 / 10)) (fun _ => 2 / 10) /\
  (forall j, (j < 2)%nat -> 0 <= 2 / 10 <= dflt 0 (sa_ror (ex_same_simple (INR j))) * dflt 1 (sa_r_star (ex_same_simple (INR j)))) /\
  is_vector 3 (vector 3 (fun m => INR m / 4)) /\ (forall m, (m < 3)%nat -> aget (vector 3 (fun m => INR m / 4)) (at_time m) = Fin (INR m / 4)) /\
  opt_exposures 3 (one_texp (Some (1 / 4))) (fun _ => 1 / 4) /\ (exists nodes weights, stencil 7 2 = Ok (nodes, weights)).
Proof. exact same_example. Qed.
