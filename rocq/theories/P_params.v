(** * C01-C10, C74: constructing a KeplerianOrbit *)
From Coq Require Import Reals Lra Bool List String.
From Coquelicot Require Import Coquelicot.
From Verif Require Import Num CoreOps Inst M_units M_kepler M_kwargs Spec_orbit Spec_params Spec_round Spec_kwargs.
From Verif Require Import L_real L_orbit L_motion L_params L_params2 L_params3 L_params4 L_round L_params5 L_kwargs L_kwargs2 L_accept Ex_orbit.
Import ListNotations.
Open Scope R_scope.

(** ** C01.  Which combinations of a, period, rho_star, r_star, m_star are
    accepted; for every numeric type, so in particular before any value is
    looked at. *)
Theorem C01_accept : forall (T B : Type) (N : Num T B) k (x : kargs T),
  others_ok x -> units_ok k x ->
  (legal_args x = true -> exists o, kep_init k x = Ok o) /\
  (legal_args x = false -> kep_init k x = Err ValueError).
Proof. exact (fun T B N k x H U => conj (kep_init_accept k x H U) (kep_init_reject k x H U)). Qed.
Print Assumptions C01_accept.

Example C01_example :
  others_ok ex_ecc_args /\ units_ok ek ex_ecc_args /\ legal_args ex_ecc_args = true /\
  legal true true true false false = false /\ legal false false true true false = false /\
  legal true false false true false = false.
Proof.
  repeat split; cbn; auto; try (eexists; reflexivity).
Qed.

(** the same with every other optional argument: a circular orbit with a duration
    (which replaces a) needs b and period and excludes incl, rho_star and m_star;
    otherwise at most one of b, incl and duration; an eccentric orbit needs omega
    or sin_omega and cos_omega; never both of t0 and t_periastron.  Everything
    else raises ValueError, except that a circular orbit with a duration and b but
    no period raises TypeError. *)
Theorem C01_complete : forall (T B : Type) (N : Num T B) k (x : kargs T),
  ka_m_planet_units x = None -> ka_rho_star_units x = None -> units_ok k x -> convertible (ka_duration x) (u_day k) ->
  (accepted x = true -> exists o, kep_init k x = Ok o) /\
  (accepted x = false ->
     kep_init k x = Err (if circular_with_duration x && given (ka_b x) && negb (given (ka_period x)) then TypeErr else ValueError)).
Proof. exact (@accept_complete). Qed.
Print Assumptions C01_complete.

Example C01_complete_example :
  accepted ex_dur_args = true /\ circular_with_duration ex_dur_args = true /\ accepted ex_edur_args = true /\
  accepted (set_times ex_ecc_args (Some 1) (Some 2)) = false /\ accepted (set_incl ex_ecc_args (Some 0) (Some 1)) = false.
Proof. repeat split. Qed.

(** ** C02 *)
Theorem C02_derived_parameters : forall k (x : kargs R) o,
  consts_ok k -> kep_init k x = Ok o -> no_unit_kw x -> no_duration_a x -> positive_args k x ->
  kept_params k x o /\
  4 * (PI * PI) * (o_a o * o_a o * o_a o) = G_grav k * (o_m_star o + o_m_planet o) * (o_period o * o_period o) /\
  o_rho_star o * (4 * PI * (o_r_star o * o_r_star o * o_r_star o)) = 3 * o_m_star o * gcc_per_sun k /\
  o_m_total o = o_m_star o + o_m_planet o.
Proof.
  exact (fun k x o kok H Hu Hd Hp =>
    match derived_params k kok x o H Hu Hd Hp with
    | conj A (conj B (conj C _)) => conj (kept k kok x o H Hu Hd Hp) (conj (eq_sym A) (conj B C)) end).
Qed.
Print Assumptions C02_derived_parameters.

(** the same two laws for every orbit with physical attributes, however it was
    built (including from a duration) *)
Theorem C02_laws : forall k (x : kargs R) o,
  consts_ok k -> kep_init k x = Ok o -> physical o ->
  G_grav k * o_m_total o * (o_period o * o_period o) = 4 * (PI * PI) * (o_a o * o_a o * o_a o) /\
  o_rho_star o * (4 * PI * (o_r_star o * o_r_star o * o_r_star o)) = 3 * o_m_star o * gcc_per_sun k /\
  o_m_total o = o_m_star o + o_m_planet o.
Proof.
  exact (fun k x o kok H Hp => let F := kep_init_facts k kok x o H Hp in
    conj (of_kepler3 k x o F) (conj (of_rho k x o F) (of_mtot k x o F))).
Qed.
Print Assumptions C02_laws.

Example C02_example : exists o, consts_ok ek /\ kep_init ek ex_ecc_args = Ok o /\ physical o /\
  no_unit_kw ex_ecc_args /\ no_duration_a ex_ecc_args /\ positive_args ek ex_ecc_args.
Proof.
  destruct ex_ecc as (o & H & Hp & _). exists o. repeat split; auto; try apply ek_ok; try apply Hp; cbn; auto.
  - left; auto.
  - eexists; split; [reflexivity|lra].
  - eexists; split; [reflexivity|lra].
Qed.

(** ** C03.  Feeding attributes back reproduces the orbit (every attribute, not
    only the sizes and masses). *)
Theorem C03_round_trip : forall k (x : kargs R) o ua up urho ur um,
  consts_ok k -> kep_init k x = Ok o -> no_unit_kw x -> no_duration_a x -> positive_args k x ->
  0 < o_m_star o -> pins ua up urho ur um = true ->
  kep_init k (reargs x o ua up urho ur um) = Ok o.
Proof. exact (fun k x o ua up urho ur um kok H Hu Hd Hp Hm => round_trip k kok x o ua up urho ur um H Hu Hd Hp Hm). Qed.
Print Assumptions C03_round_trip.

(** exactly the selections that give the orbit back, among them the arguments as they were given *)
Theorem C03_selections : forall k (x : kargs R) o ua up urho ur um,
  consts_ok k -> kep_init k x = Ok o -> no_unit_kw x -> no_duration_a x -> positive_args k x -> 0 < o_m_star o ->
  (kep_init k (reargs x o ua up urho ur um) = Ok o <-> legal ua up urho ur um = true /\ defaults_agree o ua up urho ur um).
Proof. exact (fun k x o ua up urho ur um kok => selection k kok x o ua up urho ur um). Qed.
Print Assumptions C03_selections.
Theorem C03_as_given : forall k (x : kargs R) o, consts_ok k -> kep_init k x = Ok o -> no_unit_kw x -> no_duration_a x -> positive_args k x -> 0 < o_m_star o ->
  kep_init k (reargs x o (given (ka_a x)) (given (ka_period x)) (given (ka_rho_star x)) (given (ka_r_star x)) (given (ka_m_star x))) = Ok o.
Proof. exact (fun k x o kok => as_given k kok x o). Qed.
Print Assumptions C03_as_given.

Example C03_example : exists o, kep_init ek ex_ecc_args = Ok o /\ 0 < o_m_star o /\
  pins true false true false true = true /\ pins true true false true false = true /\ pins false true true true false = true.
Proof. destruct ex_ecc as (o & H & _ & _ & Hm & _). exists o. auto. Qed.
Example C03_example_selections : exists o, kep_init ek (solar_args 10) = Ok o /\ no_unit_kw (solar_args 10) /\ no_duration_a (solar_args 10) /\
  positive_args ek (solar_args 10) /\ 0 < o_m_star o /\ defaults_agree o true false true false false /\ ~ defaults_agree (with_radius o 2) false true true false false.
Proof. exact solar_example. Qed.

(** ** C04 *)
Theorem C04_units : forall k (x x' : kargs R),
  consts_ok k -> no_unit_kw x -> no_duration_a x -> preconverted k x = Ok x' ->
  kep_init k x = kep_init k x'.
Proof. exact (fun k x x' kok Hu Hd H => preconverted_init k kok x x' Hu Hd H). Qed.
Print Assumptions C04_units.

Theorem C04_bad_unit : forall (T B : Type) (N : Num T B) k (x : kargs T),
  others_ok x -> legal_args x = true -> ~ units_ok k x -> kep_init k x = Err UnitErr.
Proof. exact (@kep_init_unit_error). Qed.
Print Assumptions C04_bad_unit.

(** the deprecated keywords m_planet_units / rho_star_units mean with_unit *)
Theorem C04_deprecated_keywords : forall k (x : kargs R) (m rho : R) um ur,
  kep_init k (set_unit_kw x (Some (plain m)) (Some (plain rho)) (Some um) (Some ur))
  = kep_init k (set_unit_kw x (Some (tagged m um)) (Some (tagged rho ur)) None None) /\
  kep_init k (set_unit_kw x (Some (plain m)) (ka_rho_star x) (Some um) None)
  = kep_init k (set_unit_kw x (Some (tagged m um)) (ka_rho_star x) None None) /\
  kep_init k (set_unit_kw x (ka_m_planet x) (Some (plain rho)) None (Some ur))
  = kep_init k (set_unit_kw x (ka_m_planet x) (Some (tagged rho ur)) None None) /\
  kep_init k (set_unit_kw x (Some (tagged m um)) (ka_rho_star x) (Some ur) None) = Err TypeErr.
Proof.
  exact (fun k x m rho um ur => match unit_kw_init k x m rho um ur with
    | conj A (conj B C) => conj A (conj B (conj C (unit_kw_twice k x m um ur (ka_rho_star x) None))) end).
Qed.
Print Assumptions C04_deprecated_keywords.

(** deviation: the unit of a duration of a circular orbit is ignored *)
Theorem C04_circular_duration_refuted : exists k (x x' : kargs R) o o',
  consts_ok k /\ preconverted k x = Ok x' /\ kep_init k x = Ok o /\ kep_init k x' = Ok o' /\
  o_a o <> o_a o'.
Proof. exact dur_units_ignored. Qed.
Print Assumptions C04_circular_duration_refuted.

(** a planet mass given in units of a thousandth of the Sun *)
Example C04_example :
  let milli := {| udim := (1, 0, 0)%Z; uscale := uscale (u_M_sun ek) / 1000 |} in
  let x := set_unit_kw ex_ecc_args (Some (tagged 500 milli)) None None None in
  exists x', preconverted ek x = Ok x' /\ no_unit_kw x /\ no_duration_a x /\
   ka_m_planet x' <> ka_m_planet x.
Proof. eexists. split; [reflexivity|]. repeat split; try (left; reflexivity). discriminate. Qed.

(** ** C05 *)
Theorem C05_exactly_one_time : forall k (x : kargs R),
  (forall t tp o, kep_init k (set_times x (Some t) (Some tp)) <> Ok o) /\
  (forall t tp o, kep_init k (set_times x (Some t) None) = Ok o ->
     kep_init k (set_times x (Some t) (Some tp)) = Err ValueError) /\
  (forall o, kep_init k (set_times x None None) = Ok o -> o_t0 o = 0).
Proof.
  exact (fun k x => conj (both_times k x) (conj (both_times_error k x) (neither_time k x))).
Qed.
Print Assumptions C05_exactly_one_time.

Theorem C05_interchange : forall k (x : kargs R) o,
  (forall t, kep_init k (set_times x (Some t) None) = Ok o ->
     o_t0 o = t /\ kep_init k (set_times x None (Some (o_tper o))) = Ok o) /\
  (forall tp, kep_init k (set_times x None (Some tp)) = Ok o ->
     o_tper o = tp /\ kep_init k (set_times x (Some (o_t0 o)) None) = Ok o) /\
  (kep_init k (set_times x None None) = Ok o ->
     kep_init k (set_times x None (Some (o_tper o))) = Ok o).
Proof.
  exact (fun k x o => conj
    (fun t H => match times_swap k x (Some t) o H with conj A B => conj (B t eq_refl) A end)
    (conj (fun tp H => match times_swap' k x tp o H with conj A B => conj B A end)
          (fun H => proj1 (times_swap k x None o H)))).
Qed.
Print Assumptions C05_interchange.

Example C05_example : exists o, kep_init ek (set_times ex_ecc_args (Some 2) None) = Ok o.
Proof. destruct ex_ecc as (o & H & _). exists o. exact H. Qed.

(** ** C06 *)
Theorem C06_mid_transit : forall k (x : kargs R) o,
  consts_ok k -> kep_init k x = Ok o -> physical o -> sinw_of o <> -1 ->
  let p := get_relative_position k o (kep_warp o) (o_t0 o) None false in
  let r := o_a o * (1 - ecc_of o * ecc_of o) / (1 + ecc_of o * sinw_of o) in
  sqrt (vx p * vx p + vy p * vy p) = Rabs (o_b o) * o_r_star o /\
  vz p = r * o_sin_incl o /\ 0 < r.
Proof. exact mid_transit. Qed.
Print Assumptions C06_mid_transit.

(** deviation: with sin_omega = -1 the planet is behind the star at t0 *)
Theorem C06_sin_omega_minus_one_refuted : forall k (x : kargs R) o,
  consts_ok k -> kep_init k x = Ok o -> physical o -> sinw_of o = -1 -> 0 < o_sin_incl o ->
  vz (get_relative_position k o (kep_warp o) (o_t0 o) None false) < 0.
Proof. exact mid_transit_behind. Qed.
Print Assumptions C06_sin_omega_minus_one_refuted.

Example C06_example : exists o, kep_init ek ex_ecc_args = Ok o /\ physical o /\ sinw_of o <> -1.
Proof.
  destruct ex_ecc as (o & H & Hp & _ & _ & _ & Hs & _). exists o. split; [exact H|]. split; [exact Hp|].
  rewrite Hs. assert (0 < sin 1) by (apply sin_gt_0; generalize PI2_1; lra). lra.
Qed.
Example C06_example_behind : exists (x : kargs R) o,
  kep_init ek x = Ok o /\ physical o /\ sinw_of o = -1 /\ 0 < o_sin_incl o.
Proof. exact ex_behind. Qed.

(** ** C07 *)
Theorem C07_relation : forall k (x : kargs R) o, consts_ok k -> kep_init k x = Ok o -> physical o ->
  o_cos_incl o = cos (o_incl o) /\ o_sin_incl o = sin (o_incl o) /\
  o_cos_incl o = o_b o * (o_r_star o / o_a o) * ((1 + ecc_of o * sinw_of o) / (1 - ecc_of o * ecc_of o)).
Proof. exact (fun k x o kok H Hp => b_incl_relation k kok x o H Hp). Qed.
Print Assumptions C07_relation.

Theorem C07_round_trip : forall k (x : kargs R) o, consts_ok k -> physical o -> no_duration_a x ->
  (forall b, kep_init k (set_incl x (Some b) None) = Ok o ->
     o_b o = b /\ kep_init k (set_incl x None (Some (o_incl o))) = Ok o) /\
  (forall i, 0 <= i <= PI -> kep_init k (set_incl x None (Some i)) = Ok o ->
     o_incl o = i /\ kep_init k (set_incl x (Some (o_b o)) None) = Ok o).
Proof.
  exact (fun k x o kok Hp Hd => conj
    (fun b H => match b_to_incl k kok x b o H Hp Hd with conj A B => conj B A end)
    (fun i Hi H => match incl_to_b k kok x i o H Hp Hi Hd with conj A B => conj B A end)).
Qed.
Print Assumptions C07_round_trip.

Theorem C07_exclusive : forall k (x : kargs R) o,
  (forall b i, kep_init k (set_incl x (Some b) (Some i)) <> Ok o) /\
  (ka_ecc x <> None -> ka_duration x <> None -> given (ka_b x) || given (ka_incl x) = true ->
     kep_init k x <> Ok o) /\
  (ka_b x = None -> ka_incl x = None -> ka_duration x = None -> kep_init k x = Ok o ->
     o_b o = 0 /\ o_cos_incl o = 0 /\ o_incl o = PI / 2 /\ o_sin_incl o = 1).
Proof.
  exact (fun k x o => conj (fun b i => b_and_incl k x b i o) (conj (incl_and_duration k x o) (no_incl k x o))).
Qed.
Print Assumptions C07_exclusive.

Theorem C07_errors : forall (T B : Type) (N : Num T B) k (x : kargs T),
  ka_m_planet_units x = None -> ka_rho_star_units x = None -> units_ok k x -> convertible (ka_duration x) (u_day k) -> given (ka_period x) = true ->
  (given (ka_b x) && given (ka_incl x) = true \/ given (ka_ecc x) && given (ka_duration x) && (given (ka_b x) || given (ka_incl x)) = true) ->
  kep_init k x = Err ValueError.
Proof. exact incl_errors. Qed.
Print Assumptions C07_errors.

Example C07_example : exists o, kep_init ek (set_incl ex_ecc_args None (Some (3 / 2))) = Ok o /\ physical o /\
  no_duration_a ex_ecc_args /\ 0 <= 3 / 2 <= PI.
Proof.
  destruct ex_ecc as (o & H & Hp & _). exists o. split; [exact H|]. split; [exact Hp|]. split; [left; reflexivity|].
  generalize PI2_1. lra.
Qed.

(** ** C08 *)
Theorem C08_circular_duration : forall k (x : kargs R) o d p b (rs : option R),
  consts_ok k -> kep_init k x = Ok o -> physical o -> ka_ecc x = None ->
  ka_duration x = Some (plain d) -> ka_period x = Some (plain p) -> ka_b x = Some b ->
  ka_r_star x = option_map plain rs ->
  let ror := match ka_ror x with Some r => r | None => 0 end in
  0 < d < p / 2 -> 0 <= b < 1 + ror ->
  let dist t := let q := get_relative_position k o (kep_warp o) t None false in
                sqrt (vx q * vx q + vy q * vy q) in
  let z t := vz (get_relative_position k o (kep_warp o) t None false) in
  let L := o_r_star o * (1 + ror) in
  (forall m : Z, dist (o_t0 o + IZR m * p - d / 2) = L /\ dist (o_t0 o + IZR m * p + d / 2) = L) /\
  (forall (m : Z) t, Rabs (t - (o_t0 o + IZR m * p)) < d / 2 -> dist t < L) /\
  (forall (m : Z) t, Rabs (t - (o_t0 o + IZR m * p)) <= d / 2 -> 0 < z t) /\
  (forall t, dist t <= L -> 0 < z t -> exists m : Z, Rabs (t - (o_t0 o + IZR m * p)) <= d / 2).
Proof. exact (fun k x o d p b rs kok => dur_transit k kok x o d p b rs). Qed.
Print Assumptions C08_circular_duration.

Example C08_example : exists o, kep_init ek ex_dur_args = Ok o /\ physical o /\ 0 < 1 < 6 / 2 /\ 0 <= 1 / 2 < 1 + 1 / 10.
Proof. destruct ex_dur as (o & H & Hp). exists o. split; [exact H|]. split; [exact Hp|]. lra. Qed.

(** ** C09 *)
Theorem C09_eccentric_duration : forall k (x : kargs R) o q,
  consts_ok k -> kep_init k x = Ok o -> physical o -> ka_ecc x <> None -> ka_duration x = Some q ->
  o_m_planet o = 0 ->
  exists d, to_unit q (u_day k) = Ok d /\
  let F := (1 + ecc_of o * sinw_of o) / (1 - ecc_of o * ecc_of o) in
  let c := sin (PI * d * F / o_period o) in
  let u := o_a o / o_r_star o in
  ((c * F) * (c * F) <> 1 -> 0 <= ((u * c) * (u * c) - 1) / ((c * F) * (c * F) - 1) ->
   0 <= o_b o /\ c * c * (o_a o * o_sin_incl o * (o_a o * o_sin_incl o))
     = o_r_star o * o_r_star o * (1 - o_b o * o_b o)).
Proof. exact (fun k x o q kok => ecc_dur_massless k kok x o q). Qed.
Print Assumptions C09_eccentric_duration.

(** deviations: a massive planet always violates the formula; ror has no effect *)
Theorem C09_massive_planet_refuted : forall k (x : kargs R) o q,
  consts_ok k -> kep_init k x = Ok o -> physical o -> ka_ecc x <> None -> ka_duration x = Some q ->
  0 < o_m_planet o ->
  exists d, to_unit q (u_day k) = Ok d /\
  let F := (1 + ecc_of o * sinw_of o) / (1 - ecc_of o * ecc_of o) in
  let c := sin (PI * d * F / o_period o) in
  let u := o_a_planet o / o_r_star o in
  ((c * F) * (c * F) <> 1 -> 0 <= ((u * c) * (u * c) - 1) / ((c * F) * (c * F) - 1) -> c <> 0 ->
   c * c * (o_a o * o_sin_incl o * (o_a o * o_sin_incl o)) <> o_r_star o * o_r_star o * (1 - o_b o * o_b o)).
Proof. exact (fun k x o q kok => ecc_dur_massive k kok x o q). Qed.
Print Assumptions C09_massive_planet_refuted.
Theorem C09_ror_ignored : forall k (x : kargs R) r, ka_ecc x <> None -> kep_init k (set_ror x r) = kep_init k x.
Proof. exact ecc_ror_ignored. Qed.
Print Assumptions C09_ror_ignored.

Example C09_example : exists o, kep_init ek ex_edur_args = Ok o /\ physical o /\ o_m_planet o = 0 /\
  let F := (1 + ecc_of o * sinw_of o) / (1 - ecc_of o * ecc_of o) in
  let c := sin (PI * 1 * F / o_period o) in
  let u := o_a o / o_r_star o in
  (c * F) * (c * F) <> 1 /\ 0 <= ((u * c) * (u * c) - 1) / ((c * F) * (c * F) - 1).
Proof.
  destruct ex_edur as (o & H & Hp & Hm & Ea & Er & Ee & Es & EP & _). exists o. split; [auto|]. split; [auto|]. split; [auto|].
  cbn zeta. rewrite Ea, Er, Ee, Es, EP.
  replace ((1 + 1 / 2 * 0) / (1 - 1 / 2 * (1 / 2))) with (4 / 3) by field.
  replace (PI * 1 * (4 / 3) / 8) with (PI / 6) by field. rewrite sin_PI6. split; [lra|].
  match goal with |- 0 <= ?a => replace a with (63 / 80) by field end. lra.
Qed.

(** ** C10 *)
Theorem C10_duration_jacobians : forall k (x : kargs R) o d0 p b (rs : option R),
  consts_ok k -> kep_init k (set_duration x (Some (plain d0))) = Ok o -> ka_ecc x = None ->
  ka_period x = Some (plain p) -> ka_b x = Some b -> ka_r_star x = option_map plain rs ->
  0 < d0 < p / 2 -> 0 <= b < 1 + match ka_ror x with Some r => r | None => 0 end ->
  0 < o_r_star o ->
  let A f d := attr (kep_init k (set_duration x (Some (plain d)))) f in
  exists j, o_jac o = Some j /\
    is_derive (A (@o_a R)) d0 (j_a j) /\
    is_derive (A (@o_rho_star R)) d0 (j_rho j) /\
    (is_derive (A (@o_a_star R)) d0 (j_a_star j) <-> o_m_planet o = 0) /\
    (is_derive (A (@o_a_planet R)) d0 (j_a_planet j) <-> o_m_planet o = 0).
Proof. exact (fun k x o d0 p b rs kok => jac_duration k kok x o d0 p b rs). Qed.
Print Assumptions C10_duration_jacobians.

Theorem C10_b_jacobian : forall k (x : kargs R) o b0,
  kep_init k (set_incl x (Some b0) None) = Ok o -> no_duration_a x ->
  is_derive (fun b => attr (kep_init k (set_incl x (Some b) None)) (@o_cos_incl R)) b0 (o_dcosidb o).
Proof. exact jac_b. Qed.
Print Assumptions C10_b_jacobian.

Example C10_example : exists o, kep_init ek (set_duration ex_dur_args (Some (plain 1))) = Ok o /\ 0 < o_r_star o.
Proof. destruct ex_dur as (o & H & Hp). exists o. split; [exact H|apply Hp]. Qed.

(** ** C74 *)
Theorem C74_unknown_keywords : forall (T B : Type) (N : Num T B) k (name : string) (v : kval T) l l',
  ~ In name kepler_keywords -> kep_call k (l ++ (name, v) :: l') = kep_call k (l ++ l').
Proof. exact (@kwargs_ignored). Qed.
Print Assumptions C74_unknown_keywords.

(** known keywords are bound to the parameters of their names; the mass of the
    planet is zero by default, everything else None *)
Theorem C74_keywords : forall (T B : Type) (N : Num T B) k l (x : kargs T), call_gives l x -> kep_call k l = kep_init k x.
Proof. exact keywords_bound. Qed.
Print Assumptions C74_keywords.

Theorem C74_a_overridden : forall (T B : Type) (N : Num T B) k (x : kargs T) d a,
  ka_ecc x = None -> ka_duration x = Some d -> kep_init k (set_a x a) = kep_init k x.
Proof. exact (@a_overridden). Qed.
Print Assumptions C74_a_overridden.

Example C74_example_keywords : call_gives ex_call ex_call_args.
Proof. exact call_example. Qed.
(** a misspelt inclination: the orbit is built edge-on; correctly spelt keywords
    do matter *)
Example C74_example : ~ In "inclination"%string kepler_keywords /\
  (exists o, kep_call ek [("period"%string, KNum (plain 10)); ("inclination"%string, KNum (plain 1))] = Ok o /\ o_incl o = 0.5 * PI + 0) /\
  (exists o, kep_call ek [("period"%string, KNum (plain 10)); ("incl"%string, KNum (plain 1))] = Ok o /\ o_incl o = 1).
Proof.
  split; [cbn; intuition discriminate|]. split; eexists; (split; [reflexivity|reflexivity]).
Qed.
