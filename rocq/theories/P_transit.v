(** * C24-C27 and C73: in_transit and systems of several planets *)
From Coq Require Import Reals Lra Bool List ZArith Sorted.
From Verif Require Import Num CoreOps Inst M_units M_kepler M_fin M_tensor Spec_orbit Spec_params Spec_array.
From Verif Require Import L_fl4 L_massless L_transit L_transit4 L_transit5 L_transit6 L_array L_ptransit Ex_orbit Ex_system.
Import ListNotations.
Open Scope R_scope.

(** ** C24 *)
Theorem C24_in_transit : forall k n N (x : kargs tens) xs os r rs t ts cp,
  consts_ok k -> system k n x xs os -> planet_values n r rs -> is_vector N t ->
  (forall m, (m < N)%nat -> aget t (at_time m) = Fin (ts m)) ->
  (forall j, (j < n)%nat -> ka_ecc (xs j) = None /\ 0 <= rs j /\ o_r_star (os j) + rs j < o_a (os j) /\ 0 <= o_sin_incl (os j)) ->
  exists o l, kep_init k x = Ok o /\
    kep_in_transit o (kep_warp o) (lift_cp cp) t r None false = Ok l /\ StronglySorted lt l /\
    forall m, In m l <-> (m < N)%nat /\ exists j, (j < n)%nat /\ transits k (os j) (rs j) (ts m).
Proof. exact in_transit_now. Qed.
Print Assumptions C24_in_transit.

Theorem C24_never_transits : forall k (x : kargs R) o r t,
  consts_ok k -> kep_init k x = Ok o -> physical o -> o_ecc o = None -> 0 <= r ->
  1 + r / o_r_star o < Rabs (o_b o) -> ~ transits k o r t.
Proof. exact never_transits. Qed.
Print Assumptions C24_never_transits.

(** outside the domain of C24_in_transit: planets that do transit (half a
    period after t0 if sin(incl) is negative, at t0 if the orbit is too close to
    the star) are never reported *)
Theorem C24_other_orbits_refuted : forall k n N (x : kargs tens) xs os r rs t ts cp,
  consts_ok k -> system k n x xs os -> planet_values n r rs -> is_vector N t ->
  (forall m, (m < N)%nat -> aget t (at_time m) = Fin (ts m)) ->
  (forall j, (j < n)%nat -> ka_ecc (xs j) = None /\ 0 <= rs j /\ Rabs (o_b (os j)) < 1 + rs j / o_r_star (os j) /\
     (o_sin_incl (os j) < 0 \/ 0 < o_sin_incl (os j) /\ o_a (os j) * o_sin_incl (os j) <
        o_r_star (os j) * sqrt ((1 + rs j / o_r_star (os j)) * (1 + rs j / o_r_star (os j)) - o_b (os j) * o_b (os j)))) ->
  (exists o, kep_init k x = Ok o /\ kep_in_transit o (kep_warp o) (lift_cp cp) t r None false = Ok []) /\
  (forall j, (j < n)%nat -> transits k (os j) (rs j) (o_t0 (os j) + if Rlt_dec (o_sin_incl (os j)) 0 then o_period (os j) / 2 else 0)).
Proof. exact in_transit_blind. Qed.
Print Assumptions C24_other_orbits_refuted.

(** two planets, one crosses the centre of the star at time 2, one passes by *)
Example C24_example : exists os,
  consts_ok ek /\ system ek 2 (ex_sys_args 2 ex_bs) (fun j => ex_b_args (ex_bs j)) os /\
  planet_values 2 (scalar (1 / 10)) (fun _ => 1 / 10) /\ opt_values 2 (Some (scalar 1)) (fun _ => 1) /\ is_vector 3 (vector 3 INR) /\
  (forall m, (m < 3)%nat -> aget (vector 3 INR) (at_time m) = Fin (INR m)) /\
  (forall j, (j < 2)%nat -> ka_ecc (ex_b_args (ex_bs j)) = None /\ 0 <= 1 / 10 /\ o_r_star (os j) + 1 / 10 < o_a (os j) /\ 0 <= o_sin_incl (os j)) /\
  transits ek (os 0%nat) (1 / 10) (INR 2) /\ ~ transits ek (os 1%nat) (1 / 10) (INR 2).
Proof. exact transit_example. Qed.
(** a planet with incl = -pi/2 *)
Example C24_other_orbits_example : exists os,
  system ek 1 (ex_incl_sys_args (- (PI / 2))) (fun _ => ex_incl_args (- (PI / 2))) os /\
  ka_ecc (ex_incl_args (- (PI / 2))) = None /\ 0 <= 1 / 10 /\ Rabs (o_b (os 0%nat)) < 1 + 1 / 10 / o_r_star (os 0%nat) /\
  o_sin_incl (os 0%nat) < 0.
Proof. exact blind_example. Qed.

(** ** C25 *)
Theorem C25_exposure : forall k n N (x : kargs tens) xs os r rs te es t ts cp,
  consts_ok k -> system k n x xs os -> planet_values n r rs ->
  opt_values n te es -> (forall j, (j < n)%nat -> 0 <= es j) -> is_vector N t ->
  (forall m, (m < N)%nat -> aget t (at_time m) = Fin (ts m)) ->
  (forall j, (j < n)%nat -> ka_ecc (xs j) = None /\ 0 <= rs j /\ o_r_star (os j) + rs j < o_a (os j) /\ 0 <= o_sin_incl (os j)) ->
  exists o l, kep_init k x = Ok o /\
    kep_in_transit o (kep_warp o) (lift_cp cp) t r te false = Ok l /\ StronglySorted lt l /\
    forall m, In m l <-> (m < N)%nat /\ exists j s, (j < n)%nat /\ Rabs (s - ts m) <= es j / 2 /\ transits k (os j) (rs j) s.
Proof. exact in_transit_circ. Qed.
Print Assumptions C25_exposure.
Example C25_example : exists os,
  consts_ok ek /\ system ek 2 (ex_sys_args 2 ex_bs) (fun j => ex_b_args (ex_bs j)) os /\
  planet_values 2 (scalar (1 / 10)) (fun _ => 1 / 10) /\ opt_values 2 (Some (scalar 1)) (fun _ => 1) /\ is_vector 3 (vector 3 INR) /\
  (forall m, (m < 3)%nat -> aget (vector 3 INR) (at_time m) = Fin (INR m)) /\
  (forall j, (j < 2)%nat -> ka_ecc (ex_b_args (ex_bs j)) = None /\ 0 <= 1 / 10 /\ o_r_star (os j) + 1 / 10 < o_a (os j) /\ 0 <= o_sin_incl (os j)) /\
  transits ek (os 0%nat) (1 / 10) (INR 2) /\ ~ transits ek (os 1%nat) (1 / 10) (INR 2).
Proof. exact transit_example. Qed.

(** ** C26 *)
Theorem C26_solver_failure : forall k n N (x : kargs tens) xs os r rs te es t ts cp,
  consts_ok k -> system k n x xs os -> planet_values n r rs -> opt_values n te es -> is_vector N t ->
  (forall m, (m < N)%nat -> aget t (at_time m) = Fin (ts m)) ->
  forall j, (j < n)%nat -> o_ecc (os j) <> None -> snd (solver_answer cp (os j) (rs j)) <> Fin 0 ->
  exists o, kep_init k x = Ok o /\ kep_in_transit o (kep_warp o) (lift_cp cp) t r te false = Ok (seq 0 N).
Proof. exact in_transit_flag. Qed.
Print Assumptions C26_solver_failure.

Theorem C26_eccentric : forall k n N (x : kargs tens) xs os r rs te es t ts cp,
  consts_ok k -> system k n x xs os -> planet_values n r rs ->
  opt_values n te es -> (forall j, (j < n)%nat -> 0 <= es j) -> is_vector N t ->
  (forall m, (m < N)%nat -> aget t (at_time m) = Fin (ts m)) ->
  forall al be : nat -> R,
  (forall j, (j < n)%nat -> ka_ecc (xs j) <> None /\ transit_interval k (os j) (rs j) (al j) (be j) /\
     solved cp (os j) (rs j) (al j) (be j) /\
     al j + es j / 2 < o_period (os j) / 2 /\ be j + es j / 2 < o_period (os j) / 2) ->
  exists o l, kep_init k x = Ok o /\
    kep_in_transit o (kep_warp o) (lift_cp cp) t r te false = Ok l /\ StronglySorted lt l /\
    forall m, In m l <-> (m < N)%nat /\ exists j s, (j < n)%nat /\ Rabs (s - ts m) <= es j / 2 /\ transits k (os j) (rs j) s.
Proof. exact in_transit_exact. Qed.
Print Assumptions C26_eccentric.
(** an eccentric keyword set and a solver that answers correctly *)
Example C26_example : exists os (cp : fl -> fl -> fl -> fl -> fl -> fl -> fl -> fl * fl * fl) al be,
  consts_ok ek /\ system ek 1 (ex_esys_args 1 (fun _ => 0)) (fun _ => with_ecc (ex_b_args 0) 0 1) os /\
  planet_values 1 (scalar (1 / 10)) (fun _ => 1 / 10) /\ opt_values 1 (Some (scalar 1)) (fun _ => 1) /\
  (forall j, (j < 1)%nat -> ka_ecc (with_ecc (ex_b_args 0) 0 1) <> None /\ transit_interval ek (os j) (1 / 10) al be /\
     solved cp (os j) (1 / 10) al be /\ al + 1 / 2 < o_period (os j) / 2 /\ be + 1 / 2 < o_period (os j) / 2).
Proof. exact ecc_example. Qed.

(** ** C27: one exposure time per observation *)
Theorem C27_one_planet : forall k n N (x : kargs tens) xs os r rs es t ts cp,
  consts_ok k -> system k n x xs os -> planet_values n r rs -> is_vector N t ->
  (forall m, (m < N)%nat -> aget t (at_time m) = Fin (ts m)) ->
  (forall j, (j < n)%nat -> ka_ecc (xs j) = None) -> n = 1%nat ->
  0 <= rs 0%nat /\ o_r_star (os 0%nat) + rs 0%nat < o_a (os 0%nat) /\ 0 <= o_sin_incl (os 0%nat) ->
  (forall q, (q < N)%nat -> 0 <= es q) ->
  exists o l, kep_init k x = Ok o /\
    kep_in_transit o (kep_warp o) (lift_cp cp) t r (Some (vector N es)) false = Ok l /\ StronglySorted lt l /\
    forall m, In m l <-> (m < N)%nat /\ exists q s, (q < N)%nat /\ Rabs (s - ts m) <= es q / 2 /\ transits k (os 0%nat) (rs 0%nat) s.
Proof. exact texp_one_planet. Qed.
Print Assumptions C27_one_planet.

Theorem C27_shape_error : forall k n N (x : kargs tens) xs os r rs es t cp,
  consts_ok k -> system k n x xs os -> planet_values n r rs -> is_vector N t ->
  (forall j, (j < n)%nat -> ka_ecc (xs j) = None) -> (2 <= n)%nat -> N <> n -> N <> 1%nat ->
  exists o, kep_init k x = Ok o /\
    kep_in_transit o (kep_warp o) (lift_cp cp) t r (Some (vector N es)) false = Err ShapeErr.
Proof. exact texp_shape_error. Qed.
Print Assumptions C27_shape_error.

(** as many observations as planets: exposure j belongs to planet j, not to
    observation j ... *)
Theorem C27_paired : forall k n (x : kargs tens) xs os r rs es t ts cp,
  consts_ok k -> system k n x xs os -> planet_values n r rs ->
  (forall j, (j < n)%nat -> 0 <= es j) -> is_vector n t ->
  (forall m, (m < n)%nat -> aget t (at_time m) = Fin (ts m)) ->
  (forall j, (j < n)%nat -> ka_ecc (xs j) = None /\ 0 <= rs j /\ o_r_star (os j) + rs j < o_a (os j) /\ 0 <= o_sin_incl (os j)) ->
  exists o l, kep_init k x = Ok o /\
    kep_in_transit o (kep_warp o) (lift_cp cp) t r (Some (vector n es)) false = Ok l /\ StronglySorted lt l /\
    forall m, In m l <-> (m < n)%nat /\ exists j s, (j < n)%nat /\ Rabs (s - ts m) <= es j / 2 /\ transits k (os j) (rs j) s.
Proof. exact texp_paired. Qed.
Print Assumptions C27_paired.
(** ... so that an exposure overlapping a transit is dropped *)
Theorem C27_dropped_refuted : exists k n (x : kargs tens) xs os (es ts : nat -> R),
  consts_ok k /\ system k n x xs os /\ (forall j, (j < n)%nat -> 0 <= es j) /\
  (forall cp, exists o l, kep_init k x = Ok o /\
     kep_in_transit o (kep_warp o) (lift_cp cp) (vector n ts) (scalar 0) (Some (vector n es)) false = Ok l /\ ~ In 1%nat l) /\
  (1 < n)%nat /\ exists s, Rabs (s - ts 1%nat) <= es 1%nat / 2 /\ transits k (os 0%nat) 0 s.
Proof. exact texp_dropped. Qed.
Print Assumptions C27_dropped_refuted.
Example C27_example : exists os,
  consts_ok ek /\ system ek 2 (ex_sys_args 2 ex_bs) (fun j => ex_b_args (ex_bs j)) os /\
  planet_values 2 (scalar (1 / 10)) (fun _ => 1 / 10) /\ opt_values 2 (Some (scalar 1)) (fun _ => 1) /\ is_vector 3 (vector 3 INR) /\
  (forall m, (m < 3)%nat -> aget (vector 3 INR) (at_time m) = Fin (INR m)) /\
  (forall j, (j < 2)%nat -> ka_ecc (ex_b_args (ex_bs j)) = None /\ 0 <= 1 / 10 /\ o_r_star (os j) + 1 / 10 < o_a (os j) /\ 0 <= o_sin_incl (os j)) /\
  transits ek (os 0%nat) (1 / 10) (INR 2) /\ ~ transits ek (os 1%nat) (1 / 10) (INR 2).
Proof. exact transit_example. Qed.

(** ** C73: every planet of a system moves as it would alone *)
Theorem C73_planets : forall k n N (x : kargs tens) o (t : tens) (fo : nat -> orbit fl) par ld b,
  planet_args n x -> kep_init k x = Ok o -> is_vector N t -> opt_per_planet n par ->
  (forall j, (j < n)%nat -> kep_init k (args_at (at_planet j) x) = Ok (fo j)) ->
  is_table3 n N (pos k o b t par ld) (fun m j => pos k (fo j) b (aget t (at_time m)) (opt_at_planet j par) ld) /\
  is_table3 n N (vel o b t) (fun m j => vel (fo j) b (aget t (at_time m))) /\
  is_table3 n N (acc o b t) (fun m j => acc (fo j) b (aget t (at_time m))) /\
  (let '(rho, th) := get_relative_angles k o (kep_warp o) t par ld in
   is_table n N rho (fun m j => fst (get_relative_angles k (fo j) (kep_warp (fo j)) (aget t (at_time m)) (opt_at_planet j par) ld)) /\
   is_table n N th (fun m j => snd (get_relative_angles k (fo j) (kep_warp (fo j)) (aget t (at_time m)) (opt_at_planet j par) ld))) /\
  (forall K u X, opt_per_planet n K -> get_radial_velocity k o (kep_warp o) t K u = Ok X ->
   exists f, is_table n N X f /\ forall m j, (m < N)%nat -> (j < n)%nat ->
     get_radial_velocity k (fo j) (kep_warp (fo j)) (aget t (at_time m)) (opt_at_planet j K) u = Ok (f m j)).
Proof. exact planets_tables. Qed.
Print Assumptions C73_planets.

(** the same with finite arguments: entry (m, j) is the exact value for planet j *)
Theorem C73_system : forall k n N (x : kargs tens) xs os (t : tens) ts,
  consts_ok k -> system k n x xs os -> is_vector N t ->
  (forall m, (m < N)%nat -> aget t (at_time m) = Fin (ts m)) ->
  exists o, kep_init k x = Ok o /\ forall b,
  is_table3 n N (pos k o b t None false) (fun m j => fin3 (pos k (os j) b (ts m) None false)) /\
  is_table3 n N (vel o b t) (fun m j => fin3 (vel (os j) b (ts m))) /\
  ((forall j, (j < n)%nat -> moving (os j) b) ->
   is_table3 n N (acc o b t) (fun m j => fin3 (acc (os j) b (ts m)))).
Proof. exact system_tables. Qed.
Print Assumptions C73_system.
Example C73_example : exists os o,
  system ek 2 (ex_sys_args 2 ex_bs) (fun j => ex_b_args (ex_bs j)) os /\
  planet_args 2 (ex_sys_args 2 ex_bs) /\ kep_init ek (ex_sys_args 2 ex_bs) = Ok o /\ is_vector 3 (vector 3 INR) /\
  (forall j, (j < 2)%nat -> kep_init ek (args_at (at_planet j) (ex_sys_args 2 ex_bs)) = Ok (fin_orbit (os j))).
Proof. exact planets_example. Qed.

(** ** C15, C20: machine numbers.  With finite arguments every result is the
    finite number that real arithmetic gives ... *)
Theorem C15_machine_numbers : forall k (x : kargs R) o,
  consts_ok k -> kep_init k x = Ok o -> physical o -> no_ecc_duration x ->
  exists fo, kep_init k (fin_args x) = Ok fo /\ forall t,
  (forall b par, pos k fo b (Fin t) (option_map Fin par) false = fin3 (pos k o b t par false)) /\
  (forall b, vel fo b (Fin t) = fin3 (vel o b t)) /\
  (forall b, moving o b -> acc fo b (Fin t) = fin3 (acc o b t)).
Proof. exact machine_motion. Qed.
Print Assumptions C15_machine_numbers.
(** ... except that the acceleration of the companion of a massless body is NaN *)
Theorem C15_massless_refuted : forall k (x : kargs R) o,
  consts_ok k -> kep_init k x = Ok o -> physical o -> no_ecc_duration x ->
  exists fo, kep_init k (fin_args x) = Ok fo /\ forall t,
  (o_m_planet o = 0 -> acc fo Star (Fin t) = (NaN, NaN, NaN)) /\ (o_m_star o = 0 -> acc fo Planet (Fin t) = (NaN, NaN, NaN)).
Proof. exact massless_acc. Qed.
Print Assumptions C15_massless_refuted.
(** the same with its delayed position: the acceleration and the delayed position of the companion
    of a massless body are NaN *)
Theorem C20_massless_nan_refuted : forall k (x : kargs R) o,
  consts_ok k -> kep_init k x = Ok o -> physical o -> no_ecc_duration x ->
  exists fo, kep_init k (fin_args x) = Ok fo /\ forall t,
  (o_m_planet o = 0 -> acc fo Star (Fin t) = (NaN, NaN, NaN) /\
     forall par, pos k fo Star (Fin t) par true = (NaN, NaN, NaN)) /\
  (o_m_star o = 0 -> acc fo Planet (Fin t) = (NaN, NaN, NaN) /\
     forall par, pos k fo Planet (Fin t) par true = (NaN, NaN, NaN)).
Proof. exact massless_nan. Qed.
Print Assumptions C20_massless_nan_refuted.
Example C20_massless_example : exists o, kep_init ek ex_dur_args = Ok o /\ physical o /\ no_ecc_duration ex_dur_args /\ o_m_planet o = 0.
Proof. exact massless_example. Qed.
