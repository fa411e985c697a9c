(** * What a transit light curve determines: systems of planets *)
From Coq Require Import Reals Lra Lia Psatz List Bool Arith ZArith.
From Coquelicot Require Import Coquelicot.
From Verif Require Import Num CoreOps Inst CoreFlux M_units M_kepler M_fin M_tensor M_limbdark M_simple Spec_orbit Spec_params Spec_array Spec_simple Spec_light Spec_depth Spec_curve
  L_real L_orbit L_params3 L_params4 L_simple L_transit L_flux L_area L_depth L_light1 L_light3 L_light4 L_light7 L_light8 L_depth2 L_depth3 L_depth4 L_curve L_curve2 L_curve3.
Import ListNotations.
Open Scope R_scope.

Lemma curve_times : forall u1 u2 u1' u2' k n (x : kargs tens) xs os o cp r rs use j n' (x' : kargs tens) xs' os' o' cp' r' rs' use' j',
  shining u1 u2 -> shining u1' u2' -> consts_ok k -> system k n x xs os -> kep_init k x = Ok o -> elements n r rs -> plain_mask use n xs os rs -> (j < n)%nat -> transiting (os j) (rs j) ->
  system k n' x' xs' os' -> kep_init k x' = Ok o' -> elements n' r' rs' -> plain_mask use' n' xs' os' rs' -> (j' < n')%nat -> transiting (os' j') (rs' j') ->
  (forall t v, light_at u1 u2 (kep_api k (lift_cp cp) o) n r use j t v <-> light_at u1' u2' (kep_api k (lift_cp cp') o') n' r' use' j' t v) ->
  same_times (os j) (os' j') /\ contact (os' j') (rs' j') = contact (os j) (rs j).
Proof.
  intros u1 u2 u1' u2' k n x xs os o cp r rs use j n' x' xs' os' o' cp' r' rs' use' j' S S' kok sys Ho Hr Hm Hj T sys' Ho' Hr' Hm' Hj' T' E.
  apply (same_dips k (xs j) (xs' j') (os j) (os' j') (rs j) (rs' j') kok (sy_init _ _ _ _ _ sys j Hj) (sy_phys _ _ _ _ _ sys j Hj) T (sy_init _ _ _ _ _ sys' j' Hj') (sy_phys _ _ _ _ _ sys' j' Hj') T' u1 u2 u1' u2' S S').
  intro t. apply (light_value u1' u2' k n' x' xs' os' o' cp' r' rs' use' j' t (shining_flux _ _ S') kok sys' Ho' Hr' Hm' Hj'), E.
  apply (light_value u1 u2 k n x xs os o cp r rs use j t (shining_flux _ _ S) kok sys Ho Hr Hm Hj). reflexivity.
Qed.
Lemma curve_determines : forall k n (x : kargs tens) xs os o cp r rs use j n' (x' : kargs tens) xs' os' o' cp' r' rs' use' j',
  consts_ok k -> system k n x xs os -> kep_init k x = Ok o -> elements n r rs -> plain_mask use n xs os rs -> (j < n)%nat -> full_transit (os j) (rs j) ->
  system k n' x' xs' os' -> kep_init k x' = Ok o' -> elements n' r' rs' -> plain_mask use' n' xs' os' rs' -> (j' < n')%nat -> full_transit (os' j') (rs' j') ->
  (forall t v, light_at 0 0 (kep_api k (lift_cp cp) o) n r use j t v <-> light_at 0 0 (kep_api k (lift_cp cp') o') n' r' use' j' t v) ->
  same_times (os j) (os' j') /\ rs' j' / o_r_star (os' j') = rs j / o_r_star (os j) /\ Rabs (o_b (os' j')) = Rabs (o_b (os j)) /\ o_a (os' j') / o_r_star (os' j') = o_a (os j) / o_r_star (os j).
Proof.
  intros k n x xs os o cp r rs use j n' x' xs' os' o' cp' r' rs' use' j' kok sys Ho Hr Hm Hj T sys' Ho' Hr' Hm' Hj' T' E. assert (D := shining_flux _ _ uniform_shines).
  apply (same_geometry k (xs j) (xs' j') (os j) (os' j') (rs j) (rs' j') kok (sy_init _ _ _ _ _ sys j Hj) (sy_phys _ _ _ _ _ sys j Hj) (proj1 T) (sy_init _ _ _ _ _ sys' j' Hj') (sy_phys _ _ _ _ _ sys' j' Hj') (proj1 T') T T').
  intro t. apply (light_value 0 0 k n' x' xs' os' o' cp' r' rs' use' j' t D kok sys' Ho' Hr' Hm' Hj'), E. apply (light_value 0 0 k n x xs os o cp r rs use j t D kok sys Ho Hr Hm Hj). reflexivity.
Qed.
Lemma curve_enough : forall u1 u2 k n (x : kargs tens) xs os o cp r rs use j n' (x' : kargs tens) xs' os' o' cp' r' rs' use' j',
  disk_flux u1 u2 <> 0 -> consts_ok k -> system k n x xs os -> kep_init k x = Ok o -> elements n r rs -> plain_mask use n xs os rs -> (j < n)%nat -> transiting (os j) (rs j) ->
  system k n' x' xs' os' -> kep_init k x' = Ok o' -> elements n' r' rs' -> plain_mask use' n' xs' os' rs' -> (j' < n')%nat -> transiting (os' j') (rs' j') ->
  same_times (os j) (os' j') -> rs' j' / o_r_star (os' j') = rs j / o_r_star (os j) -> Rabs (o_b (os' j')) = Rabs (o_b (os j)) -> o_a (os' j') / o_r_star (os' j') = o_a (os j) / o_r_star (os j) ->
  forall t v, light_at u1 u2 (kep_api k (lift_cp cp) o) n r use j t v <-> light_at u1 u2 (kep_api k (lift_cp cp') o') n' r' use' j' t v.
Proof.
  intros u1 u2 k n x xs os o cp r rs use j n' x' xs' os' o' cp' r' rs' use' j' D kok sys Ho Hr Hm Hj T sys' Ho' Hr' Hm' Hj' T' E1 E2 E3 E4 t v.
  rewrite (light_value u1 u2 k n x xs os o cp r rs use j t D kok sys Ho Hr Hm Hj), (light_value u1 u2 k n' x' xs' os' o' cp' r' rs' use' j' t D kok sys' Ho' Hr' Hm' Hj').
  rewrite (geometry_enough k (xs j) (xs' j') (os j) (os' j') (rs j) (rs' j') kok (sy_init _ _ _ _ _ sys j Hj) (sy_phys _ _ _ _ _ sys j Hj) T (sy_init _ _ _ _ _ sys' j' Hj') (sy_phys _ _ _ _ _ sys' j' Hj') T' u1 u2 E1 E2 E3 E4 t). reflexivity.
Qed.
Lemma curve_density : forall k (x x' : kargs R) o o', consts_ok k -> kep_init k x = Ok o -> physical o -> kep_init k x' = Ok o' -> physical o' ->
  same_times o o' -> o_a o' / o_r_star o' = o_a o / o_r_star o -> 0 < o_m_star o -> 0 < o_m_star o' -> o_m_planet o / o_m_star o = o_m_planet o' / o_m_star o' -> o_rho_star o' = o_rho_star o.
Proof.
  intros k x x' o o' kok Ho ph Ho' ph' E1 E2 M M' Q. apply (same_density k x x' o o' kok Ho ph Ho' ph' E1 E2); try assumption.
  replace (o_m_planet o * o_m_star o') with (o_m_planet o / o_m_star o * o_m_star o * o_m_star o') by (field; lra). rewrite Q. field. lra.
Qed.
Lemma curve_dimmed : forall u1 u2 k n (x : kargs tens) xs os o cp r rs use j t v,
  shining u1 u2 -> consts_ok k -> system k n x xs os -> kep_init k x = Ok o -> elements n r rs -> plain_mask use n xs os rs -> (j < n)%nat -> transiting (os j) (rs j) ->
  light_at u1 u2 (kep_api k (lift_cp cp) o) n r use j t v ->
  v <= 0 /\ (v < 0 <-> exists z : Z, Rabs (t - (o_t0 (os j) + IZR z * o_period (os j))) < o_period (os j) / (2 * PI) * asin (sqrt (contact (os j) (rs j)))).
Proof.
  intros u1 u2 k n x xs os o cp r rs use j t v S kok sys Ho Hr Hm Hj T H. apply (light_value u1 u2 k n x xs os o cp r rs use j t (shining_flux _ _ S) kok sys Ho Hr Hm Hj) in H. subst v.
  assert (I1 := sy_init _ _ _ _ _ sys j Hj). assert (P1 := sy_phys _ _ _ _ _ sys j Hj). split; [|apply (dips k (xs j) (os j) (rs j) kok I1 P1 T u1 u2 t S)].
  destruct (near_mid (o_t0 (os j)) (o_period (os j)) t (ph_period _ P1)) as [z Hz]. destruct (dims_iff k (xs j) (os j) (rs j) kok I1 P1 T u1 u2 z _ S Hz) as [_ D]. replace (o_t0 (os j) + IZR z * o_period (os j) + (t - (o_t0 (os j) + IZR z * o_period (os j)))) with t in D by ring. exact D.
Qed.
