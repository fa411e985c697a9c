(** * Light curves combined with orbits: property C77 *)
From Coq Require Import Reals List Bool Arith ZArith.
From Verif Require Import Num CoreOps Inst CoreFlux M_units M_kepler M_kwargs M_fin M_tensor M_simple M_ttv M_limbdark M_secondary M_interpolated M_compose
  Spec_orbit Spec_params Spec_array Spec_simple Spec_ttv Spec_light Spec_secondary Spec_interp Ex_orbit Ex_system Ex_compose L_simple2 L_compose L_compose2.
Import ListNotations.
Open Scope R_scope.

(** ** C77 *)
(** secondary eclipses work with KeplerianOrbit only *)
Theorem C77_secondary_refuted : forall k cp S tv r t texp os order use ld,
  (forall o, light_curve_of k cp (Secondary S) (Some (Timed o)) tv (Some r) t texp os order use ld = Err ValueError) /\
  (forall s, light_curve_of k cp (Secondary S) (Some (Simple s)) tv (Some r) t texp os order use ld = Err AttrErr) /\
  light_curve_of k cp (Secondary S) None tv (Some r) t texp os order use ld = Err AttrErr /\
  (forall o, light_curve_of k cp (Secondary S) o tv None t texp os order use ld = Err NotImpl).
Proof. exact secondary_errors. Qed.
Print Assumptions C77_secondary_refuted.
(** secondary eclipses of Keplerian orbits can be interpolated *)
Theorem C77_interpolated_secondary : forall k cp u1 u2 v1 v2 n x xs os o tv r rs s ss os' order use Q np N t ts,
  consts_ok k -> system k n x xs os -> kep_init k x = Ok o -> disk_flux u1 u2 <> 0 -> disk_flux v1 v2 <> 0 ->
  planet_values n r rs -> (forall j, (j < n)%nat -> 0 < rs j) -> one_each n r -> one_each n (o_r_star o) ->
  planet_values n s ss -> (forall j, (j < n)%nat -> 0 <= ss j) ->
  use = Some false \/ (use = None /\ forall j, (j < n)%nat -> ka_ecc (xs j) = None /\ o_r_star (os j) + rs j < o_a (os j) /\ 0 <= o_sin_incl (os j)) ->
  (0 <= Q)%Z -> counted np tv n -> observed N t ts ->
  ash (o_t0 o) = Ok (if Nat.leb n 1 then [] else [n]) -> ash (o_period o) = Ok (if Nat.leb n 1 then [] else [n]) ->
  let f j w := let P := pos k (os j) Relative w None false in
    mixture (flux_ratio (ss j) (rs j) (o_r_star (os j))) (flux_at u1 u2 P (rs j) (o_r_star (os j))) (flux_at v1 v2 (opposite P) (o_r_star (os j)) (rs j)) in
  exists Y v, light_curve_of k (lift_cp cp) (Interpolated (Secondary {| se_primary := ld_init (Fin u1) (Fin u2); se_secondary := ld_init (Fin v1) (Fin v2); se_ratio := s |}) Q np)
      (Some (Keplerian o)) tv (Some r) (Some t) None os' order use false = Ok Y /\
    light_table n N Y v /\
    forall m j, (m < N)%nat -> (j < n)%nat -> let P := o_period (os j) in let T0 := o_t0 (os j) in
      (exists ph, phase T0 P (ts m) ph /\ four_point (fun s => f j (T0 + s)) (P / IZR (Q + 1)) ph (v m j)) /\
      (forall c0 c1 c2 c3, (forall s, Rabs (s - ts m) <= 2 * (P / IZR (Q + 1)) -> f j s = cubic c0 c1 c2 c3 s) -> v m j = f j (ts m)) /\
      (forall L, 0 <= L -> (forall s, Rabs (s - ts m) <= 2 * (P / IZR (Q + 1)) -> Rabs (f j s - f j (ts m)) <= L * Rabs (s - ts m)) ->
         Rabs (v m j - f j (ts m)) <= 3 / 4 * L * (P / IZR (Q + 1))).
Proof. exact compose_secondary. Qed.
Print Assumptions C77_interpolated_secondary.
(** so can the light curves of a SimpleTransitOrbit *)
Theorem C77_simple : forall k cp u1 u2 n x xs tv r rs os' order use Q np N t ts,
  disk_flux u1 u2 <> 0 -> simple_system n x xs -> (forall j, (j < n)%nat -> simple_ok (xs j)) -> elements n r rs ->
  use = false \/ (forall j, (j < n)%nat -> 0 <= rs j /\ Rabs (dflt 0 (sa_b (xs j))) < 1 + dflt 0 (sa_ror (xs j)) /\
     Rabs (dflt 0 (sa_b (xs j))) * dflt 1 (sa_r_star (xs j)) <> dflt 1 (sa_r_star (xs j)) + rs j) ->
  (0 <= Q)%Z -> counted np tv n -> observed N t ts ->
  ash (s_t0 (simple_init x)) = Ok (if Nat.leb n 1 then [] else [n]) -> ash (sa_period x) = Ok (if Nat.leb n 1 then [] else [n]) ->
  let f j s := flux_at u1 u2 (spos (xs j) s) (rs j) (dflt 1 (sa_r_star (xs j))) in
  exists Y v, light_curve_of k cp (Interpolated (LimbDark (ld_init (Fin u1) (Fin u2))) Q np) (Some (Simple (simple_init x))) tv (Some r) (Some t) None os' order (Some use) false = Ok Y /\
    light_table n N Y v /\
    forall m j, (m < N)%nat -> (j < n)%nat -> let P := sa_period (xs j) in let T0 := dflt 0 (sa_t0 (xs j)) in
      (exists ph, phase T0 P (ts m) ph /\ four_point (fun s => f j (T0 + s)) (P / IZR (Q + 1)) ph (v m j)) /\
      (forall c0 c1 c2 c3, (forall s, Rabs (s - ts m) <= 2 * (P / IZR (Q + 1)) -> f j s = cubic c0 c1 c2 c3 s) -> v m j = f j (ts m)) /\
      (forall L, 0 <= L -> (forall s, Rabs (s - ts m) <= 2 * (P / IZR (Q + 1)) -> Rabs (f j s - f j (ts m)) <= L * Rabs (s - ts m)) ->
         Rabs (v m j - f j (ts m)) <= 3 / 4 * L * (P / IZR (Q + 1))).
Proof. exact compose_simple. Qed.
Print Assumptions C77_simple.
(** a TTVOrbit of several planets: the light curve of one period after t0 is
    repeated for ever *)
Theorem C77_ttv : forall k n o os tts near cp u1 u2 tv r rs os' order use Q np N t ts,
  consts_ok k -> ttv_system k n o os tts -> nearest_transits n tts near -> disk_flux u1 u2 <> 0 -> elements n r rs ->
  use = false \/ (forall j, (j < n)%nat -> o_ecc (os j) = None /\ 0 <= rs j /\ o_r_star (os j) + rs j < o_a (os j) /\ 0 <= o_sin_incl (os j)) ->
  (2 <= n)%nat -> (0 <= Q)%Z -> counted np tv n -> observed N t ts ->
  exists Y v, light_curve_of k (lift_cp cp) (Interpolated (LimbDark (ld_init (Fin u1) (Fin u2))) Q np) (Some (Timed o)) tv (Some r) (Some t) None os' order (Some use) false = Ok Y /\
    light_table n N Y v /\
    forall m j, (m < N)%nat -> (j < n)%nat ->
      exists ph, phase (o_t0 (os j)) (o_period (os j)) (ts m) ph /\
        four_point (fun s => flux_at u1 u2 (pos k (os j) Relative (orbit_time os near j (o_t0 (os j) + s)) None false) (rs j) (o_r_star (os j)))
          (o_period (os j) / IZR (Q + 1)) ph (v m j).
Proof. exact compose_ttv. Qed.
Print Assumptions C77_ttv.
(** a transit that arrives at a phase where that period has no transit
    disappears from the interpolated light curve *)
Theorem C77_ttv_lost_refuted : forall k n o os tts near cp u1 u2 tv r rs os' order use Q np N t ts m j ph,
  consts_ok k -> ttv_system k n o os tts -> nearest_transits n tts near -> disk_flux u1 u2 <> 0 -> elements n r rs ->
  use = false \/ (forall j, (j < n)%nat -> o_ecc (os j) = None /\ 0 <= rs j /\ o_r_star (os j) + rs j < o_a (os j) /\ 0 <= o_sin_incl (os j)) ->
  (2 <= n)%nat -> (0 <= Q)%Z -> counted np tv n -> is_vector N t -> observed N t ts ->
  (m < N)%nat -> (j < n)%nat -> 0 <= rs j -> In (ts m) (tts j) -> phase (o_t0 (os j)) (o_period (os j)) (ts m) ph ->
  (forall s, Rabs (s - (o_t0 (os j) + ph)) <= 2 * (o_period (os j) / IZR (Q + 1)) ->
     ~ overlaps (pos k (os j) Relative (orbit_time os near j s) None false) (rs j) (o_r_star (os j))) ->
  exists X Y, light_curve_of k (lift_cp cp) (LimbDark (ld_init (Fin u1) (Fin u2))) (Some (Timed o)) tv (Some r) (Some t) None os' order (Some use) false = Ok X /\
    light_curve_of k (lift_cp cp) (Interpolated (LimbDark (ld_init (Fin u1) (Fin u2))) Q np) (Some (Timed o)) tv (Some r) (Some t) None os' order (Some use) false = Ok Y /\
    aget X (at_tp m j) = Fin (flux_at u1 u2 (pos k (os j) Relative (o_t0 (os j)) None false) (rs j) (o_r_star (os j))) /\
    aget Y (at_tp m j) = Fin 0.
Proof. exact compose_ttv_lost. Qed.
Print Assumptions C77_ttv_lost_refuted.
(** a TTVOrbit of one planet is rejected *)
Theorem C77_ttv_one_refuted : forall k o os tts cp b tv r texp os' order use ld Q np N t ts,
  consts_ok k -> ttv_system k 1 o os tts -> counted np tv 1 -> observed N t ts ->
  light_curve_of k cp (Interpolated b Q np) (Some (Timed o)) tv r (Some t) texp os' order use ld = Err AssertErr.
Proof. exact compose_ttv_one. Qed.
Print Assumptions C77_ttv_one_refuted.
(** interpolating an interpolated light curve on the same grid changes nothing *)
Theorem C77_twice : forall k cp u1 u2 n x xs os o tv r rs os' order use Q np N t ts,
  disk_flux u1 u2 <> 0 -> consts_ok k -> system k n x xs os -> kep_init k x = Ok o -> elements n r rs ->
  use = false \/ (forall j, (j < n)%nat -> ka_ecc (xs j) = None /\ 0 <= rs j /\ o_r_star (os j) + rs j < o_a (os j) /\ 0 <= o_sin_incl (os j)) ->
  (0 <= Q)%Z -> counted np tv n -> observed N t ts ->
  ash (o_t0 o) = Ok (if Nat.leb n 1 then [] else [n]) -> ash (o_period o) = Ok (if Nat.leb n 1 then [] else [n]) ->
  let l := LimbDark (ld_init (Fin u1) (Fin u2)) in
  let of b := light_curve_of k (lift_cp cp) b (Some (Keplerian o)) tv (Some r) (Some t) None os' order (Some use) false in
  exists Y Z v, of (Interpolated l Q np) = Ok Y /\ of (Interpolated (Interpolated l Q np) Q np) = Ok Z /\
    light_table n N Y v /\ light_table n N Z v.
Proof. exact compose_twice. Qed.
Print Assumptions C77_twice.
(** no orbit *)
Theorem C77_no_orbit : forall k cp b Q tv r t texp os order use ld,
  light_curve_of k cp (Interpolated b Q None) None tv r t texp os order use ld = Err ValueError /\
  (forall z, light_curve_of k cp (Interpolated b Q (Some z)) None tv r t texp os order use ld = Err AttrErr).
Proof. exact no_orbit. Qed.
Print Assumptions C77_no_orbit.
Example C77_example_late : exists o os near, disk_flux (3 / 10) (2 / 10) <> 0 /\ consts_ok ek /\
  ttv_init ek ex_late = Ok o /\ ttv_system ek 2 o os ex_late_tts /\ nearest_transits 2 ex_late_tts near /\
  elements 2 (vector 2 (fun _ => 1 / 10)) (fun _ => 1 / 10) /\
  (forall j, (j < 2)%nat -> o_ecc (os j) = None /\ 0 <= 1 / 10 /\ o_r_star (os j) + 1 / 10 < o_a (os j) /\ 0 <= o_sin_incl (os j)) /\
  counted None (Some 2%nat) 2 /\ is_vector 1 (vector 1 (fun _ => 15)) /\ observed 1 (vector 1 (fun _ => 15)) (fun _ => 15) /\
  In 15 (ex_late_tts 0) /\ phase (o_t0 (os 0%nat)) (o_period (os 0%nat)) 15 3 /\
  (forall s, Rabs (s - (o_t0 (os 0%nat) + 3)) <= 2 * (o_period (os 0%nat) / IZR (99 + 1)) ->
     ~ overlaps (pos ek (os 0%nat) Relative (orbit_time os near 0 s) None false) (1 / 10) (o_r_star (os 0%nat))) /\
  flux_at (3 / 10) (2 / 10) (pos ek (os 0%nat) Relative (o_t0 (os 0%nat)) None false) (1 / 10) (o_r_star (os 0%nat)) < 0.
Proof. exact late_example. Qed.
Example C77_example_simple : simple_system 1 ex_one_simple (fun _ => ex_simple (1 / 2)) /\ simple_ok (ex_simple (1 / 2)) /\
  elements 1 (scalar (1 / 10)) (fun _ => 1 / 10) /\
  (0 <= 1 / 10 /\ Rabs (dflt 0 (sa_b (ex_simple (1 / 2)))) < 1 + dflt 0 (sa_ror (ex_simple (1 / 2))) /\
     Rabs (dflt 0 (sa_b (ex_simple (1 / 2)))) * dflt 1 (sa_r_star (ex_simple (1 / 2))) <> dflt 1 (sa_r_star (ex_simple (1 / 2))) + 1 / 10) /\
  counted None (Some 1%nat) 1 /\ observed 3 (vector 3 INR) INR /\
  ash (s_t0 (simple_init ex_one_simple)) = Ok [] /\ ash (sa_period ex_one_simple) = Ok [].
Proof. exact simple_interp_example. Qed.
Example C77_example_eclipse : exists o o', system ek 1 (ex_scalar_args 0) (fun _ => ex_b_args 0) (fun _ => o) /\
  kep_init ek (ex_scalar_args 0) = Ok o' /\ disk_flux (3 / 10) (2 / 10) <> 0 /\ consts_ok ek /\
  planet_values 1 (scalar (1 / 10)) (fun _ => 1 / 10) /\ one_each 1 (scalar (1 / 10)) /\ one_each 1 (o_r_star o') /\
  (ka_ecc (ex_b_args 0) = None /\ o_r_star o + 1 / 10 < o_a o /\ 0 <= o_sin_incl o) /\
  counted (Some 1%Z) None 1 /\ observed 3 (vector 3 INR) INR /\ ash (o_t0 o') = Ok [] /\ ash (o_period o') = Ok [].
Proof. exact eclipse_interp_example. Qed.
