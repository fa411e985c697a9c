(** * What the light curve of a SimpleTransitOrbit determines: property C108 *)
From Coq Require Import Reals List Bool Arith ZArith.
From Verif Require Import Num CoreOps Inst CoreFlux M_units M_kepler M_fin M_tensor M_limbdark M_simple Spec_orbit Spec_params Spec_array Spec_simple Spec_light Spec_depth Spec_curve Spec_curve2
  L_pass4 Ex_orbit Ex_system Ex_curve Ex_curve2.
Import ListNotations.
Open Scope R_scope.

(** the star is dimmed around each mid-transit for the duration, or less if the planet is smaller than ror says *)
Theorem C108_dimmed : forall u1 u2 n (x : sargs tens) xs r rs use j t v,
  shining u1 u2 -> simple_system n x xs -> (forall i, (i < n)%nat -> simple_ok (xs i)) -> elements n r rs -> simple_search use n xs rs -> (j < n)%nat -> crossing (xs j) (rs j) ->
  light_at u1 u2 (simple_api (simple_init x)) n r use j t v ->
  v <= 0 /\ (v < 0 <-> exists z : Z, Rabs (t - smid (xs j) z) < sa_duration (xs j) / 2 * dimmed_part (xs j) (rs j)).
Proof. exact simple_dimmed. Qed.
Print Assumptions C108_dimmed.

(** for the whole duration if the planet has the radius that ror says *)
Theorem C108_whole_duration : forall x r, crossing x r -> matched x r -> dimmed_part x r = 1.
Proof. exact whole_duration. Qed.
Print Assumptions C108_whole_duration.

(** a planet half as large as, and twice as large as, ror says *)
Example C108_example_part : crossing (ex_line 1 0 2) (1 / 20) /\ dimmed_part (ex_line 1 0 2) (1 / 20) = 21 / 22 /\ dimmed_part (ex_line 1 0 2) (1 / 5) = 1.
Proof. exact part_example. Qed.

(** the light curve determines the period, the transit times and the time for which the star is dimmed, whatever the limb darkening of either star *)
Theorem C108_times : forall u1 u2 u1' u2' n (x : sargs tens) xs r rs use j n' (x' : sargs tens) xs' r' rs' use' j',
  shining u1 u2 -> shining u1' u2' -> simple_system n x xs -> (forall i, (i < n)%nat -> simple_ok (xs i)) -> elements n r rs -> simple_search use n xs rs -> (j < n)%nat -> crossing (xs j) (rs j) ->
  simple_system n' x' xs' -> (forall i, (i < n')%nat -> simple_ok (xs' i)) -> elements n' r' rs' -> simple_search use' n' xs' rs' -> (j' < n')%nat -> crossing (xs' j') (rs' j') ->
  (forall t v, light_at u1 u2 (simple_api (simple_init x)) n r use j t v <-> light_at u1' u2' (simple_api (simple_init x')) n' r' use' j' t v) ->
  same_simple_times (xs j) (xs' j') /\ sa_duration (xs' j') * dimmed_part (xs' j') (rs' j') = sa_duration (xs j) * dimmed_part (xs j) (rs j).
Proof. exact simple_times. Qed.
Print Assumptions C108_times.

(** if the ratio of the radii is known or shown by the light curve, also the ratio and the impact parameter *)
Theorem C108_geometry : forall u1 u2 n (x : sargs tens) xs r rs use j n' (x' : sargs tens) xs' r' rs' use' j',
  lit u1 u2 -> simple_system n x xs -> (forall i, (i < n)%nat -> simple_ok (xs i)) -> elements n r rs -> simple_search use n xs rs -> (j < n)%nat -> crossing (xs j) (rs j) -> matched (xs j) (rs j) ->
  simple_system n' x' xs' -> (forall i, (i < n')%nat -> simple_ok (xs' i)) -> elements n' r' rs' -> simple_search use' n' xs' rs' -> (j' < n')%nat -> crossing (xs' j') (rs' j') -> matched (xs' j') (rs' j') ->
  ratio_shown u1 u2 (dflt 0 (sa_b (xs j))) (dflt 1 (sa_r_star (xs j))) (rs j) (dflt 0 (sa_b (xs' j'))) (dflt 1 (sa_r_star (xs' j'))) (rs' j') ->
  (forall t v, light_at u1 u2 (simple_api (simple_init x)) n r use j t v <-> light_at u1 u2 (simple_api (simple_init x')) n' r' use' j' t v) ->
  same_simple_times (xs j) (xs' j') /\ sa_duration (xs' j') = sa_duration (xs j) /\ dflt 0 (sa_ror (xs' j')) = dflt 0 (sa_ror (xs j)) /\ Rabs (dflt 0 (sa_b (xs' j'))) = Rabs (dflt 0 (sa_b (xs j))).
Proof. exact simple_geometry. Qed.
Print Assumptions C108_geometry.

(** nothing else matters *)
Theorem C108_nothing_else : forall u1 u2 n (x : sargs tens) xs r rs use j n' (x' : sargs tens) xs' r' rs' use' j',
  disk_flux u1 u2 <> 0 -> simple_system n x xs -> (forall i, (i < n)%nat -> simple_ok (xs i)) -> elements n r rs -> simple_search use n xs rs -> (j < n)%nat ->
  simple_system n' x' xs' -> (forall i, (i < n')%nat -> simple_ok (xs' i)) -> elements n' r' rs' -> simple_search use' n' xs' rs' -> (j' < n')%nat ->
  same_simple_times (xs j) (xs' j') -> sa_duration (xs' j') = sa_duration (xs j) -> dflt 0 (sa_ror (xs' j')) = dflt 0 (sa_ror (xs j)) -> Rabs (dflt 0 (sa_b (xs' j'))) = Rabs (dflt 0 (sa_b (xs j))) ->
  rs' j' / dflt 1 (sa_r_star (xs' j')) = rs j / dflt 1 (sa_r_star (xs j)) ->
  forall t v, light_at u1 u2 (simple_api (simple_init x)) n r use j t v <-> light_at u1 u2 (simple_api (simple_init x')) n' r' use' j' t v.
Proof. exact simple_enough. Qed.
Print Assumptions C108_nothing_else.

(** a star with twice the radius, a planet of twice the radius on the other side of the disk, ten days later *)
Example C108_example : simple_system 1 (ex_line_sys 1 (1 / 2) 2) (fun _ => ex_line 1 (1 / 2) 2) /\ simple_ok (ex_line 1 (1 / 2) 2) /\ elements 1 (vector 1 (fun _ => 1 / 10)) (fun _ => 1 / 10) /\
  simple_search None 1 (fun _ => ex_line 1 (1 / 2) 2) (fun _ => 1 / 10) /\ crossing (ex_line 1 (1 / 2) 2) (1 / 10) /\ matched (ex_line 1 (1 / 2) 2) (1 / 10) /\
  simple_system 1 (ex_line_sys 2 (- (1 / 2)) 12) (fun _ => ex_line 2 (- (1 / 2)) 12) /\ simple_ok (ex_line 2 (- (1 / 2)) 12) /\ elements 1 (vector 1 (fun _ => 2 / 10)) (fun _ => 2 / 10) /\
  simple_search None 1 (fun _ => ex_line 2 (- (1 / 2)) 12) (fun _ => 2 / 10) /\ crossing (ex_line 2 (- (1 / 2)) 12) (2 / 10) /\ matched (ex_line 2 (- (1 / 2)) 12) (2 / 10) /\
  lit (1 / 2) (1 / 4) /\ shining (1 / 2) (1 / 4) /\ disk_flux (1 / 2) (1 / 4) <> 0 /\ (0 < 1)%nat /\
  ratio_shown (1 / 2) (1 / 4) (1 / 2) 1 (1 / 10) (- (1 / 2)) 2 (2 / 10) /\ ratio_shown 0 0 (1 / 2) 1 (1 / 10) (- (1 / 2)) 2 (3 / 10) /\ lit 0 0 /\
  (forall t v, light_at (1 / 2) (1 / 4) (simple_api (simple_init (ex_line_sys 1 (1 / 2) 2))) 1 (vector 1 (fun _ => 1 / 10)) None 0 t v <-> light_at (1 / 2) (1 / 4) (simple_api (simple_init (ex_line_sys 2 (- (1 / 2)) 12))) 1 (vector 1 (fun _ => 2 / 10)) None 0 t v) /\
  (exists v, light_at (1 / 2) (1 / 4) (simple_api (simple_init (ex_line_sys 1 (1 / 2) 2))) 1 (vector 1 (fun _ => 1 / 10)) None 0 (12 + 4 / 10) v /\ v < 0) /\
  light_at (1 / 2) (1 / 4) (simple_api (simple_init (ex_line_sys 1 (1 / 2) 2))) 1 (vector 1 (fun _ => 1 / 10)) None 0 (12 + 6 / 10) 0.
Proof. exact line_example. Qed.

(** no circular orbit of a KeplerianOrbit has the same light curve *)
Theorem C108_not_kepler : forall u1 u2 k n (x : kargs tens) xs os o cp r rs use j n' (x' : sargs tens) xs' r' rs' use' j',
  lit u1 u2 -> consts_ok k -> system k n x xs os -> kep_init k x = Ok o -> elements n r rs -> plain_mask use n xs os rs -> (j < n)%nat -> transiting (os j) (rs j) ->
  simple_system n' x' xs' -> (forall i, (i < n')%nat -> simple_ok (xs' i)) -> elements n' r' rs' -> simple_search use' n' xs' rs' -> (j' < n')%nat -> crossing (xs' j') (rs' j') -> matched (xs' j') (rs' j') ->
  ratio_shown u1 u2 (o_b (os j)) (o_r_star (os j)) (rs j) (dflt 0 (sa_b (xs' j'))) (dflt 1 (sa_r_star (xs' j'))) (rs' j') ->
  ~ forall t v, light_at u1 u2 (kep_api k (lift_cp cp) o) n r use j t v <-> light_at u1 u2 (simple_api (simple_init x')) n' r' use' j' t v.
Proof. exact simple_not_kepler. Qed.
Print Assumptions C108_not_kepler.

Example C108_example_kepler : exists o o1, consts_ok ek /\ system ek 1 (ex_star_sys (1 * 1 * 1) 1 (1 / 2) 2) (fun _ => ex_star_args (1 * 1 * 1) 1 (1 / 2) 2) (fun _ => o1) /\ kep_init ek (ex_star_sys (1 * 1 * 1) 1 (1 / 2) 2) = Ok o /\
  elements 1 (vector 1 (fun _ => 1 / 10)) (fun _ => 1 / 10) /\ plain_mask None 1 (fun _ => ex_star_args (1 * 1 * 1) 1 (1 / 2) 2) (fun _ => o1) (fun _ => 1 / 10) /\ transiting o1 (1 / 10) /\
  simple_system 1 (ex_line_sys 1 (1 / 2) 2) (fun _ => ex_line 1 (1 / 2) 2) /\ simple_ok (ex_line 1 (1 / 2) 2) /\ simple_search None 1 (fun _ => ex_line 1 (1 / 2) 2) (fun _ => 1 / 10) /\ crossing (ex_line 1 (1 / 2) 2) (1 / 10) /\ matched (ex_line 1 (1 / 2) 2) (1 / 10) /\
  lit (1 / 2) (1 / 4) /\ (0 < 1)%nat /\ ratio_shown (1 / 2) (1 / 4) (o_b o1) (o_r_star o1) (1 / 10) (1 / 2) 1 (1 / 10).
Proof. exact line_star_example. Qed.
