(** * C59-C61: radial-velocity estimators *)
From Coq Require Import Reals List Bool Arith ZArith.
From Verif Require Import Num Inst M_units M_kepler M_rv Spec_orbit Spec_rv L_rv3 L_rv4 L_rv5 L_rv6 L_rv7 Ex_orbit Ex_rv.
Import ListNotations.
Open Scope R_scope.

(** C59: with transit times, noiseless data give back every signed amplitude *)
Theorem C59_transit : forall k periods t0s x y yerr P T0 ts vs sigma Ks c, consts_ok k ->
  measures periods (u_day k) P -> measures t0s (u_day k) T0 -> rv_data k x y yerr ts vs sigma ->
  List.Forall (fun p => p <> 0) P -> (length P <= length T0)%nat -> length Ks = length P ->
  transit_identifiable P T0 ts -> vs = map (transit_model P T0 Ks c) ts ->
  estimate_semi_amplitude k periods x y yerr (Some t0s) = Ok Ks.
Proof. exact transit_recovered. Qed.
Print Assumptions C59_transit.
Example C59_transit_example : consts_ok ek /\ transit_identifiable two_p two_t0 two_ts /\ forall K1 K2 c,
  rv_data ek (plain two_ts) (Q (map (fun v => v / 1000) (two_vs K1 K2 c)) (Some (u_kmps ek))) (Some (plain [1; 2; 3; 1 / 2])) two_ts (two_vs K1 K2 c) [1; 2; 3; 1 / 2].
Proof. exact (conj ek_ok (conj two_identifiable two_data)). Qed.

(** without transit times, every amplitude *)
Theorem C59_phase : forall k periods x y yerr P ts vs sigma Ks phis c, consts_ok k ->
  measures periods (u_day k) P -> rv_data k x y yerr ts vs sigma -> List.Forall (fun p => p <> 0) P ->
  length Ks = length P -> length phis = length P -> List.Forall (fun K => 0 <= K) Ks ->
  phase_identifiable P ts -> vs = map (harmonic_model P Ks phis c) ts ->
  estimate_semi_amplitude k periods x y yerr None = Ok Ks.
Proof. exact phase_recovered. Qed.
Print Assumptions C59_phase.
Example C59_phase_example : consts_ok ek /\ phase_identifiable [10] one_ts /\ forall vs, length vs = 3%nat ->
  rv_data ek (plain one_ts) (plain vs) None one_ts vs [1; 1; 1].
Proof. exact (conj ek_ok (conj one_identifiable (plain_data one_ts))). Qed.

(** data predicted by get_radial_velocity for circular orbits *)
Theorem C59_orbits : forall k os Ks c periods t0s x y yerr ts vs sigma,
  consts_ok k -> List.Forall (circular_orbit k) os -> length Ks = length os ->
  measures periods (u_day k) (map (fun o => o_period o) os) -> measures t0s (u_day k) (map (fun o => o_t0 o) os) ->
  rv_data k x y yerr ts vs sigma -> transit_identifiable (map (fun o => o_period o) os) (map (fun o => o_t0 o) os) ts ->
  Forall2 (fun t v => exists r, orbits_rv k os Ks t = Ok r /\ v = r + c) ts vs ->
  estimate_semi_amplitude k periods x y yerr (Some t0s) = Ok Ks.
Proof. exact rv_orbits. Qed.
Print Assumptions C59_orbits.
Example C59_orbits_example : exists o, circular_orbit ek o /\ o_period o = 10 /\ o_t0 o = 2 /\ transit_identifiable [10] [2] [2; 9 / 2].
Proof. exact rv_orbit_example. Qed.

Theorem C59_orbits_phase : forall k os Ks c periods x y yerr ts vs sigma,
  consts_ok k -> List.Forall (circular_orbit k) os -> length Ks = length os ->
  measures periods (u_day k) (map (fun o => o_period o) os) -> rv_data k x y yerr ts vs sigma -> phase_identifiable (map (fun o => o_period o) os) ts ->
  Forall2 (fun t v => exists r, orbits_rv k os Ks t = Ok r /\ v = r + c) ts vs ->
  estimate_semi_amplitude k periods x y yerr None = Ok (map Rabs Ks).
Proof. exact rv_orbits_phase. Qed.
Print Assumptions C59_orbits_phase.

(** in general the amplitudes minimise the weighted sum of squared residuals *)
Theorem C59_least_squares : forall k periods t0s x y yerr P T0 ts vs sigma K, consts_ok k ->
  measures periods (u_day k) P -> measures t0s (u_day k) T0 -> rv_data k x y yerr ts vs sigma ->
  List.Forall (fun p => p <> 0) P -> (length P <= length T0)%nat ->
  estimate_semi_amplitude k periods x y yerr (Some t0s) = Ok K ->
  length K = length P /\ exists c, forall K' c', length K' = length P ->
    chi2 (transit_model P T0 K c) ts vs sigma <= chi2 (transit_model P T0 K' c') ts vs sigma.
Proof. exact transit_optimal. Qed.
Print Assumptions C59_least_squares.

Theorem C59_least_squares_phase : forall k periods x y yerr P ts vs sigma K, consts_ok k ->
  measures periods (u_day k) P -> rv_data k x y yerr ts vs sigma -> List.Forall (fun p => p <> 0) P ->
  estimate_semi_amplitude k periods x y yerr None = Ok K ->
  exists As Bs c, length As = length P /\ length Bs = length P /\ K = amplitude_list As Bs /\ forall As' Bs' c', length As' = length P -> length Bs' = length P ->
    chi2 (phase_model P As Bs c) ts vs sigma <= chi2 (phase_model P As' Bs' c') ts vs sigma.
Proof. exact phase_optimal. Qed.
Print Assumptions C59_least_squares_phase.

(** an estimate exists exactly when the observation times tell the parameters
    apart; too few transit times raise IndexError *)
Theorem C59_defined : forall k periods t0s x y yerr P T0 ts vs sigma, consts_ok k ->
  measures periods (u_day k) P -> measures t0s (u_day k) T0 -> rv_data k x y yerr ts vs sigma -> List.Forall (fun p => p <> 0) P ->
  ((length P <= length T0)%nat ->
     match estimate_semi_amplitude k periods x y yerr (Some t0s) with
     | Ok _ => transit_identifiable P T0 ts | Err e => e = LinAlgErr /\ ~ transit_identifiable P T0 ts end) /\
  ((length T0 < length P)%nat -> estimate_semi_amplitude k periods x y yerr (Some t0s) = Err IndexErr) /\
  match estimate_semi_amplitude k periods x y yerr None with
  | Ok _ => phase_identifiable P ts | Err e => e = LinAlgErr /\ ~ phase_identifiable P ts end.
Proof. exact estimates_defined. Qed.
Print Assumptions C59_defined.
Example C59_defined_example : estimate_semi_amplitude ek (plain two_p) (plain two_ts) (plain (two_vs 1 1 0)) None (Some (plain [0])) = Err IndexErr.
Proof. exact two_short. Qed.

(** C60: plain numbers are days and m/s, Quantities are converted *)
Theorem C60_units : forall k periods x y yerr t0s P X Y E T0, consts_ok k ->
  measures periods (u_day k) P -> measures x (u_day k) X -> measures y (u_mps k) Y -> opt_measures yerr (u_mps k) E -> opt_measures t0s (u_day k) T0 ->
  match E with None => qu y = None | Some e => List.Forall (fun s => s <> 0) e end ->
  estimate_semi_amplitude k periods x y yerr t0s =
  estimate_semi_amplitude k (plain P) (plain X) (plain Y) (option_map plain E) (option_map plain T0).
Proof. exact est_units. Qed.
Print Assumptions C60_units.
Example C60_units_example : consts_ok ek /\ measures (Q [3; 4] (Some (u_kmps ek))) (u_mps ek) [3000; 4000].
Proof. exact kmps_example. Qed.

(** a unit of the wrong kind raises; so does, contrary to the documentation, every
    Quantity of velocities without uncertainties *)
Theorem C60_incompatible : forall k periods x y yerr t0s,
  incompatible periods (u_day k) \/ incompatible x (u_day k) \/ incompatible y (u_mps k) \/
  (exists e, yerr = Some e /\ incompatible e (u_mps k)) \/ (exists t, t0s = Some t /\ incompatible t (u_day k)) \/ (yerr = None /\ qu y <> None) ->
  estimate_semi_amplitude k periods x y yerr t0s = Err UnitErr.
Proof. exact est_incompatible. Qed.
Print Assumptions C60_incompatible.
Theorem C60_quantity_y_refuted : exists k periods x y t0s P X Y T0, consts_ok k /\
  measures periods (u_day k) P /\ measures x (u_day k) X /\ measures y (u_mps k) Y /\ measures t0s (u_day k) T0 /\
  (exists K, estimate_semi_amplitude k (plain P) (plain X) (plain Y) None (Some (plain T0)) = Ok K) /\
  estimate_semi_amplitude k periods x y None (Some t0s) = Err UnitErr.
Proof. exact quantity_y_example. Qed.
Print Assumptions C60_quantity_y_refuted.
Theorem C60_mass : forall k mJ periods x y yerr t0s ms,
  incompatible periods (u_day k) \/ (exists v, qu ms = Some v /\ udim v <> udim (u_M_sun k)) \/ incompatible x (u_day k) \/ incompatible y (u_mps k) \/
  (exists e, yerr = Some e /\ incompatible e (u_mps k)) \/ (exists t, t0s = Some t /\ incompatible t (u_day k)) \/ (yerr = None /\ qu y <> None) ->
  estimate_minimum_mass k mJ periods x y yerr t0s ms = Err UnitErr.
Proof. exact mass_incompatible. Qed.
Print Assumptions C60_mass.

(** C61: the minimum masses, in Jupiter masses *)
Theorem C61_formula : forall k mJ periods x y yerr t0s ms P m K, consts_ok k -> measures periods (u_day k) P -> solar_masses k ms m ->
  estimate_semi_amplitude k periods x y yerr t0s = Ok K ->
  estimate_minimum_mass k mJ periods x y yerr t0s ms =
    Ok (Q (map (fun z => fst z / 28.4329 * Rpower m (2 / 3) * Rpower (snd z / 365.25) (1 / 3)) (combine K P)) (Some mJ)) /\ length K = length P.
Proof. exact mass_formula. Qed.
Print Assumptions C61_formula.

(** noiseless data of circular orbits: m sin i times (m_star / total mass)^(2/3), in
    units of 28.4329 m/s over the semi-amplitude that one solar mass would cause
    on a one-year orbit around one solar mass *)
Theorem C61_kepler : forall k mJ os c ms m periods t0s x y yerr ts vs sigma,
  consts_ok k -> List.Forall (circular_orbit k) os -> solar_masses k ms m -> 0 < m ->
  measures periods (u_day k) (map (fun o => o_period o) os) -> measures t0s (u_day k) (map (fun o => o_t0 o) os) ->
  rv_data k x y yerr ts vs sigma -> transit_identifiable (map (fun o => o_period o) os) (map (fun o => o_t0 o) os) ts ->
  Forall2 (fun t v => exists r, masses_rv k os t = Ok r /\ v = r + c) ts vs ->
  estimate_minimum_mass k mJ periods x y yerr (Some t0s) ms =
    Ok (Q (map (fun o => o_m_planet o * o_sin_incl o * Rpower (m / (o_m_star o + o_m_planet o)) (2 / 3) * (solar_K k 365.25 1 / 28.4329)) os) (Some mJ)).
Proof. exact mass_orbits. Qed.
Print Assumptions C61_kepler.
Example C61_kepler_example : exists o, circular_orbit ek o /\ o_period o = 10 /\ o_t0 o = 2 /\ 0 < o_m_planet o /\ o_sin_incl o = 1.
Proof. exact circ_rv_example. Qed.

Theorem C61_kepler_phase : forall k mJ os c ms m periods x y yerr ts vs sigma,
  consts_ok k -> List.Forall (circular_orbit k) os -> solar_masses k ms m -> 0 < m ->
  measures periods (u_day k) (map (fun o => o_period o) os) ->
  rv_data k x y yerr ts vs sigma -> phase_identifiable (map (fun o => o_period o) os) ts ->
  Forall2 (fun t v => exists r, masses_rv k os t = Ok r /\ v = r + c) ts vs ->
  estimate_minimum_mass k mJ periods x y yerr None ms =
    Ok (Q (map (fun o => Rabs (o_m_planet o * o_sin_incl o) * Rpower (m / (o_m_star o + o_m_planet o)) (2 / 3) * (solar_K k 365.25 1 / 28.4329)) os) (Some mJ)).
Proof. exact mass_orbits_phase. Qed.
Print Assumptions C61_kepler_phase.

(** with transit times the estimates are linear in the data *)
Theorem C61_linear : forall k periods t0s P T0 x y1 y2 y yerr ts v1 v2 sigma a b K1 K2, consts_ok k ->
  measures periods (u_day k) P -> measures t0s (u_day k) T0 -> (length P <= length T0)%nat ->
  rv_data k x y1 yerr ts v1 sigma -> rv_data k x y2 yerr ts v2 sigma -> rv_data k x y yerr ts (lincomb a b v1 v2) sigma ->
  estimate_semi_amplitude k periods x y1 yerr (Some t0s) = Ok K1 -> estimate_semi_amplitude k periods x y2 yerr (Some t0s) = Ok K2 ->
  estimate_semi_amplitude k periods x y yerr (Some t0s) = Ok (lincomb a b K1 K2).
Proof. exact transit_linear. Qed.
Print Assumptions C61_linear.
(** and the masses with them *)
Theorem C61_linear_mass : forall k mJ periods t0s P T0 x y1 y2 y yerr ts v1 v2 sigma a b ms m M1 M2, consts_ok k ->
  measures periods (u_day k) P -> measures t0s (u_day k) T0 -> (length P <= length T0)%nat -> solar_masses k ms m ->
  rv_data k x y1 yerr ts v1 sigma -> rv_data k x y2 yerr ts v2 sigma -> rv_data k x y yerr ts (lincomb a b v1 v2) sigma ->
  estimate_minimum_mass k mJ periods x y1 yerr (Some t0s) ms = Ok (Q M1 (Some mJ)) ->
  estimate_minimum_mass k mJ periods x y2 yerr (Some t0s) ms = Ok (Q M2 (Some mJ)) ->
  estimate_minimum_mass k mJ periods x y yerr (Some t0s) ms = Ok (Q (lincomb a b M1 M2) (Some mJ)).
Proof. exact mass_linear. Qed.
Print Assumptions C61_linear_mass.
(** without them only scaling the data scales the estimates *)
Theorem C61_homogeneous : forall k periods P x y1 y yerr ts v1 sigma l K1, consts_ok k -> measures periods (u_day k) P ->
  rv_data k x y1 yerr ts v1 sigma -> rv_data k x y yerr ts (map (Rmult l) v1) sigma ->
  estimate_semi_amplitude k periods x y1 yerr None = Ok K1 -> estimate_semi_amplitude k periods x y yerr None = Ok (map (Rmult (Rabs l)) K1).
Proof. exact phase_homogeneous. Qed.
Print Assumptions C61_homogeneous.
