(** * Rounding errors in SimpleTransitOrbit: property C113 *)
From Coq Require Import Reals List ZArith.
From Verif Require Import Num CoreOps Inst M_units M_kepler M_fin M_simple Spec_orbit Spec_params Spec_simple Spec_float Spec_float2 L_simple2 L_float8 L_float9 Ex_float Ex_float2.
Open Scope R_scope.

(** positions: on the straight line of the nearest transit, up to rounding errors that grow with the time from t0 *)
Theorem C113_position : forall u rd, accurate u rd -> forall x, simple_ok x -> 0 <= dflt 0 (sa_ror x) -> Rabs (dflt 0 (sa_b x)) < 1 + dflt 0 (sa_ror x) ->
  let g := grazing (1 + dflt 0 (sa_ror x)) (dflt 0 (sa_b x)) in let rs := dflt 1 (sa_r_star x) in let speed := 2 * half_chord x / sa_duration x in u * g <= 1 / 200 -> forall t, exists q : Z,
  (forall q', Rabs (t - smid x q) <= Rabs (t - smid x q') + 2 * time_error u x t) /\
  Rabs (fst (fst (computed_position rd x t)) - speed * (t - smid x q)) <= speed * (time_error u x t + 8 * u * g * sa_period x) /\
  Rabs (snd (fst (computed_position rd x t)) - dflt 0 (sa_b x) * rs) <= 4 * u * Rabs (dflt 0 (sa_b x) * rs).
Proof. exact pos_ok. Qed.
Print Assumptions C113_position.

(** in front of the star (z > 0) exactly within half a duration of mid-transit, up to those errors *)
Theorem C113_front : forall u rd, accurate u rd -> forall x, simple_ok x -> forall t, let z := snd (computed_position rd x t) in
  (0 < z \/ z < 0) /\ exists m, (m = true <-> 0 < z) /\ decides x t (sa_duration x / 2) (time_error u x t + 2 * u * sa_duration x) m.
Proof. exact front_ok. Qed.
Print Assumptions C113_front.

(** in_transit without a radius *)
Theorem C113_in_transit : forall u rd, accurate u rd -> forall x, simple_ok x -> forall t e, 0 <= dflt 0 e ->
  decides x t (sa_duration x / 2 + dflt 0 e / 2) (time_error u x t + 4 * u * (sa_duration x + dflt 0 e)) (computed_mask rd x t None e).
Proof. exact mask_duration. Qed.
Print Assumptions C113_in_transit.

(** in_transit with a radius *)
Theorem C113_in_transit_radius : forall u rd, accurate u rd -> forall x, simple_ok x -> 0 <= dflt 0 (sa_ror x) -> Rabs (dflt 0 (sa_b x)) < 1 + dflt 0 (sa_ror x) ->
  u * grazing (1 + dflt 0 (sa_ror x)) (dflt 0 (sa_b x)) <= 1 / 200 -> forall t r e, 0 <= r -> 0 <= dflt 0 e ->
  Rabs (dflt 0 (sa_b x) * dflt 1 (sa_r_star x)) < r + dflt 1 (sa_r_star x) ->
  u * (grazing (1 + dflt 0 (sa_ror x)) (dflt 0 (sa_b x)) + grazing (r + dflt 1 (sa_r_star x)) (dflt 0 (sa_b x) * dflt 1 (sa_r_star x))) <= 1 / 200 ->
  let tol := sa_duration x / 2 * (half_reach x r / half_chord x) + dflt 0 e / 2 in
  decides x t tol (time_error u x t + 13 * u * (grazing (1 + dflt 0 (sa_ror x)) (dflt 0 (sa_b x)) + grazing (r + dflt 1 (sa_r_star x)) (dflt 0 (sa_b x) * dflt 1 (sa_r_star x))) * tol) (computed_mask rd x t (Some r) e).
Proof. exact mask_reach. Qed.
Print Assumptions C113_in_transit_radius.

(** no NaN: numbers that know NaN give the same results *)
Theorem C113_finite : forall u rd, accurate u rd -> forall x, simple_ok x -> 0 <= dflt 0 (sa_ror x) -> Rabs (dflt 0 (sa_b x)) < 1 + dflt 0 (sa_ror x) -> u * grazing (1 + dflt 0 (sa_ror x)) (dflt 0 (sa_b x)) <= 1 / 200 ->
  let o := @simple_init fl bool (rounded_fl rd) (map_sargs Fin x) in
  (forall t, @simple_relative_position fl bool (rounded_fl rd) o (Fin t) false = Ok (fin3 (computed_position rd x t))) /\
  (forall t e, @simple_mask fl bool (rounded_fl rd) o (Fin t) None (option_map Fin e) = computed_mask rd x t None e) /\
  (forall t r e, 0 <= r -> let rs := dflt 1 (sa_r_star x) in let b := dflt 0 (sa_b x) in Rabs (b * rs) < r + rs -> u * grazing (r + rs) (b * rs) <= 1 / 200 ->
    @simple_mask fl bool (rounded_fl rd) o (Fin t) (Some (Fin r)) (option_map Fin e) = computed_mask rd x t (Some r) e).
Proof. exact computed_finite. Qed.
Print Assumptions C113_finite.

(** nor in double precision, for all impact parameters up to 1 + ror, the limit included *)
Theorem C113_double : accurate half_ulp double /\ forall x, simple_ok x -> nearest (dflt 0 (sa_b x)) = dflt 0 (sa_b x) ->
  let o := @simple_init fl bool (rounded_fl double) (map_sargs Fin x) in
  (forall t, @simple_relative_position fl bool (rounded_fl double) o (Fin t) false = Ok (fin3 (computed_position double x t))) /\
  (forall t e, @simple_mask fl bool (rounded_fl double) o (Fin t) None (option_map Fin e) = computed_mask double x t None e).
Proof. exact (conj (proj1 double_ok) double_finite). Qed.
Print Assumptions C113_double.

(** a thousand days with double precision: less than 1e-12 days *)
Example C113_example : accurate half_ulp double /\ simple_ok (ex_simple (1 / 2)) /\ 0 <= dflt 0 (sa_ror (ex_simple (1 / 2))) /\ Rabs (dflt 0 (sa_b (ex_simple (1 / 2)))) < 1 + dflt 0 (sa_ror (ex_simple (1 / 2))) /\
  half_ulp * grazing (1 + dflt 0 (sa_ror (ex_simple (1 / 2)))) (dflt 0 (sa_b (ex_simple (1 / 2)))) <= 1 / 200 /\
  (let rs := dflt 1 (sa_r_star (ex_simple (1 / 2))) in let b := dflt 0 (sa_b (ex_simple (1 / 2))) in Rabs (b * rs) < 1 / 10 + rs /\
    half_ulp * (grazing (1 + dflt 0 (sa_ror (ex_simple (1 / 2)))) b + grazing (1 / 10 + rs) (b * rs)) <= 1 / 200) /\
  time_error half_ulp (ex_simple (1 / 2)) 1000 <= / 10 ^ 12.
Proof. exact sfloat_example. Qed.
Example C113_example_touch : simple_ok ex_touch /\ nearest (dflt 0 (sa_b ex_touch)) = dflt 0 (sa_b ex_touch) /\ Rabs (dflt 0 (sa_b ex_touch)) = 1 + dflt 0 (sa_ror ex_touch).
Proof. exact touch_example. Qed.
