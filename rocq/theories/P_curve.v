(** * What a transit light curve determines: property C106 *)
From Coq Require Import Reals List Bool Arith ZArith.
From Verif Require Import Num CoreOps Inst CoreFlux M_units M_kepler M_fin M_tensor M_limbdark Spec_orbit Spec_params Spec_array Spec_light Spec_depth Spec_curve Spec_curve2 L_curve4 L_curve5 L_pass4 Ex_orbit Ex_curve Ex_curve2.
Import ListNotations.
Open Scope R_scope.

(** the star is dimmed from the first to the last contact of each transit *)
Theorem C106_dimmed : forall u1 u2 k n (x : kargs tens) xs os o cp r rs use j t v,
  shining u1 u2 -> consts_ok k -> system k n x xs os -> kep_init k x = Ok o -> elements n r rs -> plain_mask use n xs os rs -> (j < n)%nat -> transiting (os j) (rs j) ->
  light_at u1 u2 (kep_api k (lift_cp cp) o) n r use j t v ->
  v <= 0 /\ (v < 0 <-> exists z : Z, Rabs (t - (o_t0 (os j) + IZR z * o_period (os j))) < o_period (os j) / (2 * PI) * asin (sqrt (contact (os j) (rs j)))).
Proof. exact curve_dimmed. Qed.
Print Assumptions C106_dimmed.

(** the light curve determines the period, the transit times and the duration, whatever the limb darkening of either star *)
Theorem C106_times : forall u1 u2 u1' u2' k n (x : kargs tens) xs os o cp r rs use j n' (x' : kargs tens) xs' os' o' cp' r' rs' use' j',
  shining u1 u2 -> shining u1' u2' -> consts_ok k -> system k n x xs os -> kep_init k x = Ok o -> elements n r rs -> plain_mask use n xs os rs -> (j < n)%nat -> transiting (os j) (rs j) ->
  system k n' x' xs' os' -> kep_init k x' = Ok o' -> elements n' r' rs' -> plain_mask use' n' xs' os' rs' -> (j' < n')%nat -> transiting (os' j') (rs' j') ->
  (forall t v, light_at u1 u2 (kep_api k (lift_cp cp) o) n r use j t v <-> light_at u1' u2' (kep_api k (lift_cp cp') o') n' r' use' j' t v) ->
  same_times (os j) (os' j') /\ contact (os' j') (rs' j') = contact (os j) (rs j).
Proof. exact curve_times. Qed.
Print Assumptions C106_times.

(** if the ratio of the radii is known or shown by the light curve, also the ratio, the impact parameter and the semi-major axis in units of the radius of the star *)
Theorem C106_geometry : forall u1 u2 k n (x : kargs tens) xs os o cp r rs use j n' (x' : kargs tens) xs' os' o' cp' r' rs' use' j',
  lit u1 u2 -> consts_ok k -> system k n x xs os -> kep_init k x = Ok o -> elements n r rs -> plain_mask use n xs os rs -> (j < n)%nat -> transiting (os j) (rs j) ->
  system k n' x' xs' os' -> kep_init k x' = Ok o' -> elements n' r' rs' -> plain_mask use' n' xs' os' rs' -> (j' < n')%nat -> transiting (os' j') (rs' j') ->
  ratio_shown u1 u2 (o_b (os j)) (o_r_star (os j)) (rs j) (o_b (os' j')) (o_r_star (os' j')) (rs' j') ->
  (forall t v, light_at u1 u2 (kep_api k (lift_cp cp) o) n r use j t v <-> light_at u1 u2 (kep_api k (lift_cp cp') o') n' r' use' j' t v) ->
  same_times (os j) (os' j') /\ rs' j' / o_r_star (os' j') = rs j / o_r_star (os j) /\ Rabs (o_b (os' j')) = Rabs (o_b (os j)) /\ o_a (os' j') / o_r_star (os' j') = o_a (os j) / o_r_star (os j).
Proof. exact curve_geometry. Qed.
Print Assumptions C106_geometry.

(** a grazing transit of a limb-darkened star *)
Example C106_example_grazing : exists o o1, consts_ok ek /\ system ek 1 (ex_star_sys (1 * 1 * 1) 1 1 2) (fun _ => ex_star_args (1 * 1 * 1) 1 1 2) (fun _ => o1) /\ kep_init ek (ex_star_sys (1 * 1 * 1) 1 1 2) = Ok o /\
  elements 1 (vector 1 (fun _ => 1 / 10)) (fun _ => 1 / 10) /\ plain_mask None 1 (fun _ => ex_star_args (1 * 1 * 1) 1 1 2) (fun _ => o1) (fun _ => 1 / 10) /\ transiting o1 (1 / 10) /\ ~ full_transit o1 (1 / 10) /\
  lit (1 / 2) (1 / 4) /\ ratio_shown (1 / 2) (1 / 4) (o_b o1) (o_r_star o1) (1 / 10) (o_b o1) (o_r_star o1) (1 / 10).
Proof. exact grazing_example. Qed.

(** nothing else matters, for any limb darkening *)
Theorem C106_nothing_else : forall u1 u2 k n (x : kargs tens) xs os o cp r rs use j n' (x' : kargs tens) xs' os' o' cp' r' rs' use' j',
  disk_flux u1 u2 <> 0 -> consts_ok k -> system k n x xs os -> kep_init k x = Ok o -> elements n r rs -> plain_mask use n xs os rs -> (j < n)%nat -> transiting (os j) (rs j) ->
  system k n' x' xs' os' -> kep_init k x' = Ok o' -> elements n' r' rs' -> plain_mask use' n' xs' os' rs' -> (j' < n')%nat -> transiting (os' j') (rs' j') ->
  same_times (os j) (os' j') -> rs' j' / o_r_star (os' j') = rs j / o_r_star (os j) -> Rabs (o_b (os' j')) = Rabs (o_b (os j)) -> o_a (os' j') / o_r_star (os' j') = o_a (os j) / o_r_star (os j) ->
  forall t v, light_at u1 u2 (kep_api k (lift_cp cp) o) n r use j t v <-> light_at u1 u2 (kep_api k (lift_cp cp') o') n' r' use' j' t v.
Proof. exact curve_enough. Qed.
Print Assumptions C106_nothing_else.

(** the density of the star follows from the ratio of the masses *)
Theorem C106_density : forall k (x x' : kargs R) o o', consts_ok k -> kep_init k x = Ok o -> physical o -> kep_init k x' = Ok o' -> physical o' ->
  same_times o o' -> o_a o' / o_r_star o' = o_a o / o_r_star o -> 0 < o_m_star o -> 0 < o_m_star o' -> o_m_planet o / o_m_star o = o_m_planet o' / o_m_star o' -> o_rho_star o' = o_rho_star o.
Proof. exact curve_density. Qed.
Print Assumptions C106_density.

(** a star with twice the radius, eight times the mass, a planet of twice the radius on the other side of the disk, ten days later *)
Example C106_example : forall cp, exists o o1 o' o1',
  consts_ok ek /\ system ek 1 (ex_star_sys (1 * 1 * 1) 1 (1 / 2) 2) (fun _ => ex_star_args (1 * 1 * 1) 1 (1 / 2) 2) (fun _ => o1) /\ kep_init ek (ex_star_sys (1 * 1 * 1) 1 (1 / 2) 2) = Ok o /\
  elements 1 (vector 1 (fun _ => 1 / 10)) (fun _ => 1 / 10) /\ plain_mask None 1 (fun _ => ex_star_args (1 * 1 * 1) 1 (1 / 2) 2) (fun _ => o1) (fun _ => 1 / 10) /\ full_transit o1 (1 / 10) /\
  system ek 1 (ex_star_sys (2 * 2 * 2) 2 (- (1 / 2)) 12) (fun _ => ex_star_args (2 * 2 * 2) 2 (- (1 / 2)) 12) (fun _ => o1') /\ kep_init ek (ex_star_sys (2 * 2 * 2) 2 (- (1 / 2)) 12) = Ok o' /\
  elements 1 (vector 1 (fun _ => 2 / 10)) (fun _ => 2 / 10) /\ plain_mask None 1 (fun _ => ex_star_args (2 * 2 * 2) 2 (- (1 / 2)) 12) (fun _ => o1') (fun _ => 2 / 10) /\ full_transit o1' (2 / 10) /\
  shining 0 0 /\ disk_flux 0 0 <> 0 /\ (0 < 1)%nat /\ 0 < o_m_star o1 /\ 0 < o_m_star o1' /\ o_m_planet o1 / o_m_star o1 = o_m_planet o1' / o_m_star o1' /\
  o_r_star o1' = 2 * o_r_star o1 /\ o_a o1' = 2 * o_a o1 /\ o_t0 o1' = o_t0 o1 + 10 /\
  (forall t v, light_at 0 0 (kep_api ek (lift_cp cp) o) 1 (vector 1 (fun _ => 1 / 10)) None 0 t v <-> light_at 0 0 (kep_api ek (lift_cp cp) o') 1 (vector 1 (fun _ => 2 / 10)) None 0 t v) /\
  light_at 0 0 (kep_api ek (lift_cp cp) o) 1 (vector 1 (fun _ => 1 / 10)) None 0 2 (- (1 / 100)) /\ light_at 0 0 (kep_api ek (lift_cp cp) o) 1 (vector 1 (fun _ => 1 / 10)) None 0 (9 / 2) 0.
Proof. exact scaled_example. Qed.
