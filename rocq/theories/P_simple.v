(** * C28-C29: SimpleTransitOrbit *)
From Coq Require Import Reals Lra Bool List ZArith Sorted.
From Verif Require Import Num CoreOps Inst M_units M_kepler M_fin M_tensor M_simple Spec_array Spec_simple L_simple L_simple2.
Import ListNotations.
Open Scope R_scope.

(** ** C28 *)
Theorem C28_geometry : forall x, simple_ok x ->
  let P := sa_period x in let D := sa_duration x in
  let b := dflt 0 (sa_b x) in let rs := dflt 1 (sa_r_star x) in let ror := dflt 0 (sa_ror x) in
  (forall t, sz x t = 1 <-> exists q : Z, Rabs (t - smid x q) < D / 2) /\
  (forall t, sz x t = 1 \/ sz x t = -1) /\
  (forall (q : Z) d, - (P / 2) <= d < P / 2 ->
     sx x (smid x q + d) = 2 * (rs * sqrt ((1 + ror) * (1 + ror) - b * b)) / D * d /\ sy x (smid x q + d) = b * rs) /\
  (D <= P -> forall q : Z, sdist x (smid x q + D / 2) = rs * (1 + ror) /\ sdist x (smid x q - D / 2) = rs * (1 + ror)) /\
  (forall q : Z, sdist x (smid x q) = Rabs b * rs) /\
  (forall t (q : Z), spos x (t + IZR q * P) = spos x t).
Proof. exact simple_geometry. Qed.
Print Assumptions C28_geometry.

(** several planets and machine numbers: an N x n table of those values *)
Theorem C28_planets : forall n N x xs t ts,
  simple_system n x xs -> (forall j, (j < n)%nat -> simple_ok (xs j)) -> is_vector N t ->
  (forall m, (m < N)%nat -> aget t (at_time m) = Fin (ts m)) ->
  exists V, simple_relative_position (simple_init x) t false = Ok V /\
    is_table3 n N V (fun m j => fin3 (spos (xs j) (ts m))).
Proof. exact simple_table. Qed.
Print Assumptions C28_planets.

Theorem C28_star_and_velocity : forall (T B : Type) (N : Num T B) (s : simple T) (t : T),
  (forall ld, simple_star_position t ld = (nzl t, nzl t, nzl t)) /\
  simple_planet_velocity t = Err NotImpl /\ simple_star_velocity t = Err NotImpl /\ simple_radial_velocity t = Err NotImpl /\
  simple_relative_position s t true = Err NotImpl /\
  (forall (s' : simple tens) t' r texp, simple_in_transit s' t' r texp true = Err NotImpl).
Proof. exact (fun T B N s t => conj (fun _ => eq_refl) (conj eq_refl (conj eq_refl (conj eq_refl (conj eq_refl (fun _ _ _ _ => eq_refl)))))). Qed.
Print Assumptions C28_star_and_velocity.

(** get_planet_position(light_delay=True) neither raises nor delays *)
Theorem C28_light_delay_refuted : forall (T B : Type) (N : Num T B) (s : simple T) (t : T),
  simple_planet_position s t true = simple_relative_position s t false /\
  exists p, simple_planet_position s t true = Ok p.
Proof. exact (fun T B N s t => conj eq_refl (ex_intro _ _ eq_refl)). Qed.
Print Assumptions C28_light_delay_refuted.

(** |b| > 1 + ror: x is NaN although z still claims a transit *)
Theorem C28_high_b_refuted : forall x t,
  0 < sa_period x -> 0 < sa_duration x -> 0 < dflt 1 (sa_r_star x) -> 0 <= 1 + dflt 0 (sa_ror x) ->
  1 + dflt 0 (sa_ror x) < Rabs (dflt 0 (sa_b x)) ->
  simple_relative_position (simple_init (map_sargs Fin x)) (Fin t) false = Ok (NaN, Fin (sy x t), Fin (sz x t)).
Proof. exact simple_high_b. Qed.
Print Assumptions C28_high_b_refuted.

Example C28_example :
  simple_system 2 (ex_simples (fun j => INR j / 2)) (fun j => ex_simple (INR j / 2)) /\
  (forall j, (j < 2)%nat -> simple_ok (ex_simple (INR j / 2))) /\ is_vector 3 (vector 3 INR) /\
  (forall m, (m < 3)%nat -> aget (vector 3 INR) (at_time m) = Fin (INR m)).
Proof. exact (conj (proj1 simple_example) (conj (proj1 (proj2 simple_example)) (conj (proj1 (proj2 (proj2 simple_example))) (proj1 (proj2 (proj2 (proj2 simple_example))))))). Qed.

(** ** C29 *)
Theorem C29_in_transit : forall n N x xs t ts texp es,
  simple_system n x xs -> (forall j, (j < n)%nat -> simple_ok (xs j)) -> is_vector N t ->
  (forall m, (m < N)%nat -> aget t (at_time m) = Fin (ts m)) ->
  opt_values n texp es -> (forall j, (j < n)%nat -> 0 <= es j) ->
  exists l, simple_in_transit (simple_init x) t None texp false = Ok l /\ StronglySorted lt l /\
    forall m, In m l <-> (m < N)%nat /\ exists j, (j < n)%nat /\ exists s, Rabs (s - ts m) <= es j / 2 /\ sz (xs j) s = 1.
Proof. exact simple_in_none. Qed.
Print Assumptions C29_in_transit.

Theorem C29_in_transit_radius : forall n N x xs t ts r rv texp es,
  simple_system n x xs -> (forall j, (j < n)%nat -> simple_ok (xs j)) -> is_vector N t ->
  (forall m, (m < N)%nat -> aget t (at_time m) = Fin (ts m)) ->
  planet_values n r rv -> opt_values n texp es -> (forall j, (j < n)%nat -> 0 <= es j) ->
  (forall j, (j < n)%nat -> 0 <= rv j /\ Rabs (dflt 0 (sa_b (xs j))) < 1 + dflt 0 (sa_ror (xs j)) /\
     Rabs (dflt 0 (sa_b (xs j))) * dflt 1 (sa_r_star (xs j)) <> dflt 1 (sa_r_star (xs j)) + rv j) ->
  exists l, simple_in_transit (simple_init x) t (Some r) texp false = Ok l /\ StronglySorted lt l /\
    forall m, In m l <-> (m < N)%nat /\ exists j, (j < n)%nat /\ exists s, Rabs (s - ts m) <= es j / 2 /\
      sdist (xs j) s < dflt 1 (sa_r_star (xs j)) + rv j.
Proof. exact simple_in_r. Qed.
Print Assumptions C29_in_transit_radius.

(** with r = ror * r_star the two criteria are the same *)
Theorem C29_agree : forall x s, simple_ok x -> Rabs (dflt 0 (sa_b x)) < 1 + dflt 0 (sa_ror x) -> sa_duration x <= sa_period x ->
  (sdist x s < dflt 1 (sa_r_star x) + dflt 0 (sa_ror x) * dflt 1 (sa_r_star x) <-> sz x s = 1).
Proof. exact simple_agree. Qed.
Print Assumptions C29_agree.

Example C29_example :
  simple_system 2 (ex_simples (fun j => INR j / 2)) (fun j => ex_simple (INR j / 2)) /\
  (forall j, (j < 2)%nat -> simple_ok (ex_simple (INR j / 2))) /\ is_vector 3 (vector 3 INR) /\
  (forall m, (m < 3)%nat -> aget (vector 3 INR) (at_time m) = Fin (INR m)) /\
  planet_values 2 (scalar (1 / 10)) (fun _ => 1 / 10) /\ opt_values 2 (Some (scalar 1)) (fun _ => 1) /\
  (forall j, (j < 2)%nat -> 0 <= 1 / 10 /\ Rabs (dflt 0 (sa_b (ex_simple (INR j / 2)))) < 1 + dflt 0 (sa_ror (ex_simple (INR j / 2))) /\
     Rabs (dflt 0 (sa_b (ex_simple (INR j / 2)))) * dflt 1 (sa_r_star (ex_simple (INR j / 2))) <> dflt 1 (sa_r_star (ex_simple (INR j / 2))) + 1 / 10).
Proof. exact simple_example. Qed.
