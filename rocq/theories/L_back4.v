(** * Time reversal: the statements *)
From Coq Require Import Reals List Bool Arith ZArith Lra Lia Psatz.
From Verif Require Import Num CoreOps Inst CoreFlux M_units M_kepler M_fin M_tensor M_simple M_ttv M_limbdark M_secondary
  Spec_orbit Spec_params Spec_array Spec_light Spec_secondary Spec_delay Spec_sym Spec_back
  L_real L_kepop L_orbit L_params3 L_fl L_fl2 L_fl3 L_tens L_shape L_shapeS L_transit3 L_transit4 L_array L_motion L_pmotion L_pmotion3
  L_light7 L_light8 L_second L_second2 L_delay L_delay2 L_sym L_sym2 L_node L_mirror L_back L_back2 L_back3.
Import ListNotations.
Local Notation length := List.length.
Open Scope R_scope.

Lemma looks_self k x o T (z : Z) : consts_ok k -> kep_init k x = Ok o -> physical o -> o_ecc o = None -> 2 * T = 2 * o_t0 o + IZR z * o_period o -> looks_back T o o.
Proof.
  intros kok Hi Hp E H. constructor; try reflexivity.
  - apply (circular_runs k x o T z); assumption.
  - rewrite E. exact I.
  - intros _. exists (- z)%Z. rewrite opp_IZR, H. ring.
Qed.
Lemma backwards_system k n x xs os T x' : consts_ok k -> system k n x xs os -> batch n x' (fun j => backwards (xs j) (2 * T - o_t0 (os j))) ->
  exists os', system k n x' (fun j => backwards (xs j) (2 * T - o_t0 (os j))) os' /\ (forall j, (j < n)%nat -> looks_back T (os j) (os' j)) /\ exists o', kep_init k x' = Ok o'.
Proof.
  intros kok sys [B1 B2].
  assert (Q : forall j, (j < n)%nat -> exists q, kep_init k (backwards (xs j) (2 * T - o_t0 (os j))) = Ok q /\ physical q /\ looks_back T (os j) q).
  { intros j Hj. assert (Hi := sy_init _ _ _ _ _ sys j Hj). assert (Hp := sy_phys _ _ _ _ _ sys j Hj).
    destruct (back_runs k (xs j) (os j) T kok Hi Hp) as (ed & Hi' & B & Hp' & RB & Tp). eexists. split; [exact Hi'|]. split; [exact Hp'|].
    constructor; try reflexivity; [exact RB| |].
    - cbn [set_back o_ecc]. unfold ecc_back in B. destruct (o_ecc (os j)) as [d|] eqn:ED; [|exact I]. destruct ed as [d'|]; [|exact I]. destruct B as (_ & _ & _ & B). destruct (B (proj2 (phys_sinw _ d Hp ED))) as [B3 B4].
      split; [exact B3|]. split; [exact B4|]. apply Tp. discriminate.
    - intros _. exists 0%Z. cbn [set_back o_t0]. ring. }
  set (os' := fun j => match kep_init k (backwards (xs j) (2 * T - o_t0 (os j))) with Ok q => q | Err _ => os j end).
  assert (Q' : forall j, (j < n)%nat -> kep_init k (backwards (xs j) (2 * T - o_t0 (os j))) = Ok (os' j) /\ physical (os' j) /\ looks_back T (os j) (os' j)).
  { intros j Hj. destruct (Q j Hj) as (q & E & P). unfold os'. rewrite E. split; [reflexivity|exact P]. }
  exists os'. assert (S' : system k n x' (fun j => backwards (xs j) (2 * T - o_t0 (os j))) os').
  { constructor; [apply (sy_n _ _ _ _ _ sys)|exact B1|exact B2| | |]; intros j Hj.
    - apply Q', Hj.
    - apply Q', Hj.
    - exact (sy_dur _ _ _ _ _ sys j Hj). }
  split; [exact S'|]. split; [intros j Hj; apply Q', Hj|]. destruct (system_orbit k n x' _ _ kok S') as (o' & H & _). exists o'. exact H.
Qed.

Lemma backwards_in_transit : forall k n x xs os o T x', consts_ok k -> system k n x xs os -> kep_init k x = Ok o -> batch n x' (fun j => backwards (xs j) (2 * T - o_t0 (os j))) ->
  exists o', kep_init k x' = Ok o' /\
  forall cp N t t' ts r rs te es ld, (forall j, (j < n)%nat -> o_ecc (os j) = None) ->
  is_vector N t -> (forall m, (m < N)%nat -> aget t (at_time m) = Fin (ts m)) ->
  is_vector N t' -> (forall m, (m < N)%nat -> aget t' (at_time m) = Fin (2 * T - ts m)) ->
  planet_values n r rs -> opt_values n te es ->
  oa_in_transit (kep_api k (lift_cp cp) o) t r te ld = oa_in_transit (kep_api k (lift_cp cp) o') t' r te ld.
Proof.
  intros k n x xs os o T x' kok sys Ho B. destruct (backwards_system k n x xs os T x' kok sys B) as (os' & sys' & LB & o' & Ho'). exists o'. split; [exact Ho'|].
  intros cp N t t' ts r rs te es ld C Ht Hts Ht' Hts' Hr He.
  exact (back_in_transit_S k n N T x x' xs _ os os' o o' kok sys sys' Ho Ho' LB t t' ts Ht Hts Ht' Hts' rs cp r r te es ld C Hr Hr He).
Qed.
Lemma backwards_light : forall k n x xs os o T x', consts_ok k -> system k n x xs os -> kep_init k x = Ok o -> batch n x' (fun j => backwards (xs j) (2 * T - o_t0 (os j))) ->
  exists o', kep_init k x' = Ok o' /\
  forall u1 u2 cp N t t' ts r rs texp es osam order use,
  is_vector N t -> (forall m, (m < N)%nat -> aget t (at_time m) = Fin (ts m)) ->
  is_vector N t' -> (forall m, (m < N)%nat -> aget t' (at_time m) = Fin (2 * T - ts m)) ->
  disk_flux u1 u2 <> 0 -> elements n r rs -> opt_exposures N texp es -> even_rule texp osam order ->
  (use = Some false \/ (exists e, texp = one_texp e) /\ forall j, (j < n)%nat -> o_ecc (os j) = None) ->
  same_light n N
    (get_light_curve (ld_init (Fin u1) (Fin u2)) (Some (kep_api k (lift_cp cp) o)) (Some r) (Some t) texp osam order use false)
    (get_light_curve (ld_init (Fin u1) (Fin u2)) (Some (kep_api k (lift_cp cp) o')) (Some r) (Some t') texp osam order use false).
Proof.
  intros k n x xs os o T x' kok sys Ho B. destruct (backwards_system k n x xs os T x' kok sys B) as (os' & sys' & LB & o' & Ho'). exists o'. split; [exact Ho'|].
  intros u1 u2 cp N t t' ts r rs texp es osam order use Ht Hts Ht' Hts' Hd Hr He Ev Hu.
  exact (back_light_S k n N T x x' xs _ os os' o o' kok sys sys' Ho Ho' LB t t' ts Ht Hts Ht' Hts' rs u1 u2 cp r r texp es osam order use Hd Hr Hr He Ev Hu).
Qed.
Lemma backwards_secondary : forall k n x xs os o T x', consts_ok k -> system k n x xs os -> kep_init k x = Ok o -> batch n x' (fun j => backwards (xs j) (2 * T - o_t0 (os j))) ->
  exists o', kep_init k x' = Ok o' /\
  forall u1 u2 v1 v2 s ss cp r rs N t t' ts texp es osam order use,
  disk_flux u1 u2 <> 0 -> disk_flux v1 v2 <> 0 -> planet_values n r rs -> (forall j, (j < n)%nat -> 0 < rs j) -> one_each n r -> one_each n (o_r_star o) -> one_each n (o_r_star o') ->
  planet_values n s ss -> (forall j, (j < n)%nat -> 0 <= ss j) ->
  is_vector N t -> (forall m, (m < N)%nat -> aget t (at_time m) = Fin (ts m)) ->
  is_vector N t' -> (forall m, (m < N)%nat -> aget t' (at_time m) = Fin (2 * T - ts m)) -> opt_exposures N texp es -> even_rule texp osam order ->
  (use = Some false \/ (exists e, texp = one_texp e) /\ forall j, (j < n)%nat -> o_ecc (os j) = None) ->
  let S := {| se_primary := ld_init (Fin u1) (Fin u2); se_secondary := ld_init (Fin v1) (Fin v2); se_ratio := s |} in
  same_light n N (secondary_light_curve k (lift_cp cp) S o r (Some t) texp osam order use false) (secondary_light_curve k (lift_cp cp) S o' r (Some t') texp osam order use false).
Proof.
  intros k n x xs os o T x' kok sys Ho B. destruct (backwards_system k n x xs os T x' kok sys B) as (os' & sys' & LB & o' & Ho'). exists o'. split; [exact Ho'|].
  intros u1 u2 v1 v2 s ss cp r rs N t t' ts texp es osam order use D1 D2 Hr Hr0 O1 O2 O2' Hs Hs0 Ht Hts Ht' Hts' He Ev Hu.
  exact (back_secondary_S k n N T x x' xs _ os os' o o' kok sys sys' Ho Ho' LB t t' ts Ht Hts Ht' Hts' r rs Hr Hr0 O1 O2 O2' u1 u2 v1 v2 s ss cp texp es osam order use D1 D2 Hs Hs0 He Ev Hu).
Qed.
(** circular systems *)
Lemma circular_symmetric : forall k n x xs os o T, consts_ok k -> system k n x xs os -> kep_init k x = Ok o ->
  (forall j, (j < n)%nat -> o_ecc (os j) = None /\ exists z : Z, T = o_t0 (os j) + IZR z * (o_period (os j) / 2)) ->
  forall cp N t t' ts, is_vector N t -> (forall m, (m < N)%nat -> aget t (at_time m) = Fin (T + ts m)) ->
  is_vector N t' -> (forall m, (m < N)%nat -> aget t' (at_time m) = Fin (T - ts m)) ->
  (forall r rs te es ld, planet_values n r rs -> opt_values n te es ->
     oa_in_transit (kep_api k (lift_cp cp) o) t r te ld = oa_in_transit (kep_api k (lift_cp cp) o) t' r te ld) /\
  (forall u1 u2 r rs texp es osam order use, disk_flux u1 u2 <> 0 -> elements n r rs -> opt_exposures N texp es -> even_rule texp osam order ->
   use = Some false \/ (exists e, texp = one_texp e) ->
   same_light n N
    (get_light_curve (ld_init (Fin u1) (Fin u2)) (Some (kep_api k (lift_cp cp) o)) (Some r) (Some t) texp osam order use false)
    (get_light_curve (ld_init (Fin u1) (Fin u2)) (Some (kep_api k (lift_cp cp) o)) (Some r) (Some t') texp osam order use false)) /\
  (forall u1 u2 v1 v2 s ss r rs texp es osam order use,
   disk_flux u1 u2 <> 0 -> disk_flux v1 v2 <> 0 -> planet_values n r rs -> (forall j, (j < n)%nat -> 0 < rs j) -> one_each n r -> one_each n (o_r_star o) ->
   planet_values n s ss -> (forall j, (j < n)%nat -> 0 <= ss j) -> opt_exposures N texp es -> even_rule texp osam order ->
   use = Some false \/ (exists e, texp = one_texp e) ->
   let S := {| se_primary := ld_init (Fin u1) (Fin u2); se_secondary := ld_init (Fin v1) (Fin v2); se_ratio := s |} in
   same_light n N (secondary_light_curve k (lift_cp cp) S o r (Some t) texp osam order use false) (secondary_light_curve k (lift_cp cp) S o r (Some t') texp osam order use false)).
Proof.
  intros k n x xs os o T kok sys Ho C cp N t t' ts Ht Hts Ht' Hts'.
  assert (LB : forall j, (j < n)%nat -> looks_back T (os j) (os j)).
  { intros j Hj. destruct (C j Hj) as [E [z Ez]]. apply (looks_self k (xs j) (os j) T z kok (sy_init _ _ _ _ _ sys j Hj) (sy_phys _ _ _ _ _ sys j Hj) E). rewrite Ez. field. }
  assert (C' : forall j, (j < n)%nat -> o_ecc (os j) = None) by (intros j Hj; apply C, Hj).
  assert (Hts2 : forall m, (m < N)%nat -> aget t' (at_time m) = Fin (2 * T - (T + ts m))) by (intros m Hm; rewrite (Hts' m Hm); f_equal; ring).
  split; [|split].
  - intros r rs te es ld Hr He.
    exact (back_in_transit_S k n N T x x xs xs os os o o kok sys sys Ho Ho LB t t' (fun m => T + ts m) Ht Hts Ht' Hts2 rs cp r r te es ld C' Hr Hr He).
  - intros u1 u2 r rs texp es osam order use Hd Hr He Ev Hu.
    apply (back_light_S k n N T x x xs xs os os o o kok sys sys Ho Ho LB t t' (fun m => T + ts m) Ht Hts Ht' Hts2 rs u1 u2 cp r r texp es osam order use Hd Hr Hr He Ev).
    destruct Hu as [Hu|Hu]; [left; exact Hu|right; split; [exact Hu|exact C']].
  - intros u1 u2 v1 v2 s ss r rs texp es osam order use D1 D2 Hr Hr0 O1 O2 Hs Hs0 He Ev Hu.
    apply (back_secondary_S k n N T x x xs xs os os o o kok sys sys Ho Ho LB t t' (fun m => T + ts m) Ht Hts Ht' Hts2 r rs Hr Hr0 O1 O2 O2 u1 u2 v1 v2 s ss cp texp es osam order use D1 D2 Hs Hs0 He Ev).
    destruct Hu as [Hu|Hu]; [left; exact Hu|right; split; [exact Hu|exact C']].
Qed.

(** ** light delay *)
Lemma circ_ta k x o t : consts_ok k -> kep_init k x = Ok o -> physical o -> o_ecc o = None ->
  true_anomaly o (kep_warp o) true t = (cos (2 * PI * (t - o_t0 o) / o_period o), - sin (2 * PI * (t - o_t0 o) / o_period o)).
Proof.
  intros kok Hi Hp E. assert (F := kep_init_facts k kok x o Hi Hp). unfold true_anomaly. rewrite warp_R, E, (of_tref _ _ _ F). assert (T0 := of_t0 _ _ _ F). rewrite (of_M0_circ _ _ _ F E) in T0.
  assert (P := ph_period _ Hp). assert (Q := PI_RGT_0). set (th := 2 * PI * (t - o_t0 o) / o_period o).
  change ((sin ((t - o_t0 o - (o_tper o - o_t0 o)) * o_n o), cos ((t - o_t0 o - (o_tper o - o_t0 o)) * o_n o)) = (cos th, - sin th)).
  replace ((t - o_t0 o - (o_tper o - o_t0 o)) * o_n o) with (PI / 2 + th).
  - rewrite <- cos_sin. rewrite (sin_cos th). f_equal. ring.
  - unfold th. rewrite T0, (of_n _ _ _ F). field. split; lra.
Qed.
Lemma turned_x w (x y z x' y' z' : R) : (cos w * x - sin w * y, sin w * x + cos w * y, z) = (cos w * x' - sin w * y', sin w * x' + cos w * y', z') -> x = x'.
Proof.
  intro H. injection H as H1 H2 _. assert (S := sin2_cos2 w). unfold Rsqr in S.
  transitivity ((sin w * sin w + cos w * cos w) * x); [rewrite S; ring|]. transitivity ((sin w * sin w + cos w * cos w) * x'); [|rewrite S; ring].
  transitivity (cos w * (cos w * x - sin w * y) + sin w * (sin w * x + cos w * y)); [ring|]. rewrite H1, H2. ring.
Qed.
Lemma delay_asymmetric : forall k (x : kargs R) o, consts_ok k -> kep_init k x = Ok o -> physical o -> slow k o -> o_ecc o = None -> o_sin_incl o <> 0 ->
  forall par, pos k o Relative (o_t0 o) par true <> across (node_angle x + PI / 2) (pos k o Relative (o_t0 o) par true).
Proof.
  intros k x o kok Hi Hp Sl E Sn par C. assert (Ow := node_known k x o Hi). assert (P := ph_period _ Hp). assert (Q := PI_RGT_0). assert (A := ph_a _ Hp).
  destruct (delay_law k x o Relative (o_t0 o) par kok Hi Hp Sl) as (d & g & E1 & G & Ed & D4 & _); [exact I|].
  assert (G0 := proj2 (L_params4.circ_geom k kok x o (o_t0 o) Hi Hp E)). cbv zeta in G0. change (get_relative_position k o (kep_warp o) (o_t0 o) None false) with (pos k o Relative (o_t0 o) None false) in G0.
  rewrite Rminus_eq_0, Rmult_0_r in G0. unfold Rdiv in G0. rewrite Rmult_0_l, cos_0 in G0. cbv zeta in Ed. rewrite G0 in Ed.
  assert (Dn : d <> 0).
  { intros ->. rewrite Rmult_0_r in Ed. assert (o_a o * o_sin_incl o * 1 <> 0); [|nra]. apply Rmult_integral_contrapositive_currified; [|lra]. apply Rmult_integral_contrapositive_currified; lra. }
  rewrite E1 in C. destruct (circular_motion k x o 0 kok Hi Hp E d) as (M & _). cbv zeta in M. rewrite Rmult_0_l, Rplus_0_r in M.
  assert (Inv : forall a v, across a (across a v) = v).
  { intros a [[v1 v2] v3]. unfold across, vx, vy, vz. cbn [fst snd]. assert (S := sin2_cos2 (2 * a)). unfold Rsqr in S. set (s := sin (2 * a)) in *. set (c := cos (2 * a)) in *.
    apply f_equal2; [apply f_equal2|reflexivity].
    - transitivity ((s * s + c * c) * v1); [ring|rewrite S; ring].
    - transitivity ((s * s + c * c) * v2); [ring|rewrite S; ring]. }
  assert (EQ : pos k o Relative (o_t0 o - d) None false = pos k o Relative (o_t0 o + d) None false).
  { rewrite C, (M Relative None). apply Inv. }
  set (th := 2 * PI * d / o_period o).
  assert (Sd : sin th = 0).
  { assert (X : - (- o_a o * - sin (2 * PI * (o_t0 o - d - o_t0 o) / o_period o)) = - (- o_a o * - sin (2 * PI * (o_t0 o + d - o_t0 o) / o_period o))).
    { f_equal. unfold pos, get_relative_position, get_position, position_nodelay in EQ. rewrite !sqz_R, !(circ_ta k x o _ kok Hi Hp E) in EQ. cbv zeta in EQ. rewrite E in EQ. unfold rotate_vector in EQ. rewrite E, Ow in EQ. destruct (ka_Omega x) as [w|]; cbn [node_of O_cos O_sin] in EQ.
      - exact (turned_x w _ _ _ _ _ _ EQ).
      - injection EQ as H1 _ _. exact H1. }
    replace (2 * PI * (o_t0 o - d - o_t0 o) / o_period o) with (- th) in X by (unfold th; field; lra). replace (2 * PI * (o_t0 o + d - o_t0 o) / o_period o) with th in X by (unfold th; field; lra).
    rewrite sin_neg in X. apply (Rmult_eq_reg_l (o_a o)); [|lra]. lra. }
  assert (B : - (PI / 2) < th < PI / 2).
  { unfold th. assert (Rabs d < o_period o / 4) by lra. apply Rabs_def2 in H. assert (Hx : th * o_period o = 2 * PI * d) by (unfold th; field; lra). fold th. split; apply (Rmult_lt_reg_r (o_period o)); try exact P; rewrite Hx; nra. }
  assert (T0 : th = 0).
  { destruct (Rtotal_order th 0) as [H|[H|H]]; [|exact H|].
    - assert (sin th < 0) by (apply sin_lt_0_var; lra). lra.
    - assert (0 < sin th) by (apply sin_gt_0; lra). lra. }
  apply Dn. assert (Hx : th * o_period o = 2 * PI * d) by (unfold th; field; lra). rewrite T0 in Hx. apply (Rmult_eq_reg_l (2 * PI)); lra.
Qed.
(** the time of periastron of a circular orbit, of which there is none, is a quarter of a period before mid-transit *)
Lemma circular_quarter : forall k (x : kargs R) o, consts_ok k -> kep_init k x = Ok o -> physical o -> o_ecc o = None ->
  o_tper o = o_t0 o - o_period o / 4.
Proof.
  intros k x o kok Hi Hp E. assert (F := kep_init_facts k kok x o Hi Hp). assert (H := of_t0 _ _ _ F).
  rewrite (of_M0_circ _ _ _ F E), (of_n _ _ _ F) in H. rewrite H. assert (Q := PI_RGT_0). destruct Hp. field. split; lra.
Qed.
