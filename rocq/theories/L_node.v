(** * The longitude of the ascending node *)
From Coq Require Import Reals List Bool Arith ZArith Lra Lia Psatz.
From Verif Require Import Num CoreOps Inst CoreFlux M_units M_kepler M_fin M_tensor M_simple M_ttv M_limbdark M_secondary
  Spec_orbit Spec_params Spec_array Spec_light Spec_secondary Spec_delay Spec_sym
  L_real L_kepop L_orbit L_params3 L_fl L_fl2 L_fl3 L_tens L_shape L_shapeS L_transit3 L_array L_motion L_pmotion
  L_reshape L_light1 L_light2 L_light3 L_light4 L_light7 L_light8 L_second L_second2 L_pmotion2 L_delay L_delay2 L_sym.
Import ListNotations.
Local Notation length := List.length.
Open Scope R_scope.

Section G.
Context {T B : Type} {N : Num T B}.
Variable k : consts.
Definition node_of (w : option T) : option (omgd T) :=
  match w with None => None | Some w => Some {| O_Omega := w; O_cos := ncos w; O_sin := nsin w |} end.
Definition set_node (w : option T) (o : orbit T) : orbit T :=
  {| o_a := o_a o; o_period := o_period o; o_rho_star := o_rho_star o; o_r_star := o_r_star o;
     o_m_star := o_m_star o; o_m_planet := o_m_planet o; o_m_total := o_m_total o;
     o_n := o_n o; o_a_star := o_a_star o; o_a_planet := o_a_planet o; o_K0 := o_K0 o;
     o_Omega := node_of w; o_ecc := o_ecc o; o_M0 := o_M0 o; o_dcosidb := o_dcosidb o;
     o_b := o_b o; o_cos_incl := o_cos_incl o; o_incl := o_incl o; o_sin_incl := o_sin_incl o;
     o_t0 := o_t0 o; o_tper := o_tper o; o_tref := o_tref o; o_jac := o_jac o; o_duration := o_duration o |}.
Lemma node_init (x : kargs T) w : kep_init k (set_Omega x w) = rmap (set_node w) (kep_init k x).
Proof.
  unfold kep_init.
  change (kep_units (set_Omega x w)) with (kep_units x). change (kep_duration (set_Omega x w)) with (kep_duration x).
  change (kep_omega (set_Omega x w)) with (kep_omega x). cbn [set_Omega ka_period ka_m_star ka_Omega].
  destruct (kep_units x) as [[mp rho]|]; cbn [rbind rmap]; [|reflexivity].
  destruct (kep_duration x) as [[[[a rs] dur] da]|]; cbn [rbind rmap]; [|reflexivity].
  destruct (consistent_inputs k a (ka_period x) rho rs (ka_m_star x) mp) as [[[[[[a' p] rho'] rs'] ms] mp']|]; cbn [rbind rmap]; [|reflexivity].
  destruct (kep_omega x) as [ed|]; cbn [rbind rmap]; [|reflexivity].
  match goal with |- context [kep_incl k (set_Omega x w) ?a ?b ?c ?d ?e ?f ?g ?h] => change (kep_incl k (set_Omega x w) a b c d e f g h) with (kep_incl k x a b c d e f g h);
    destruct (kep_incl k x a b c d e f g h) as [[[[bb ci] ii] du]|] end; cbn [rbind rmap]; [|reflexivity].
  match goal with |- context [kep_times (set_Omega x w) ?a ?b ?c] => change (kep_times (set_Omega x w) a b c) with (kep_times x a b c);
    destruct (kep_times x a b c) as [[t0 tp]|] end; cbn [rbind rmap]; [|reflexivity].
  reflexivity.
Qed.
End G.

(** ** rotation *)
Lemma turn_rotate (o : orbit R) w x y : rotate_vector (set_node w o) x y = turn (match w with None => 0 | Some w => w end) (rotate_vector (set_node None o) x y).
Proof.
  unfold rotate_vector, turn, vx, vy, vz. cbn [set_node o_Omega o_ecc o_cos_incl o_sin_incl node_of O_cos O_sin].
  destruct (match o_ecc o with None => _ | Some d => _ end) as [x1 y1]. destruct w as [w|]; cbn [fst snd].
  - reflexivity.
  - rewrite cos_0, sin_0. apply f_equal2; [apply f_equal2|]; ring.
Qed.

Section R.
Variables (k : consts) (o : orbit R) (w : option R) (wp : bool -> R -> R).
Notation W := (match w with None => 0 | Some w => w end).
Notation o' := (set_node w o).
Notation o0 := (set_node None o).
Lemma turn_ta pad t : true_anomaly o' wp pad t = true_anomaly o0 wp pad t.
Proof. reflexivity. Qed.
Lemma turn_nodelay a t par pad : position_nodelay k o' wp a t par pad = turn W (position_nodelay k o0 wp a t par pad).
Proof.
  unfold position_nodelay. rewrite turn_ta. destruct (true_anomaly o0 wp pad t) as [s c]. apply turn_rotate.
Qed.
Lemma turn_state a t pad : retarded_state o' wp a t pad = retarded_state o0 wp a t pad.
Proof.
  unfold retarded_state. rewrite turn_ta. destruct (true_anomaly o0 wp pad t) as [s c]. cbn [set_node o_ecc o_period o_sin_incl].
  destruct (o_ecc o) as [d|]; rewrite turn_rotate; unfold turn, vz; match goal with |- context [rotate_vector ?a ?b ?c] => destruct (rotate_vector a b c) as [[? ?] ?] end; reflexivity.
Qed.
Lemma turn_position a t par ld pad : get_position k o' wp a t par ld pad = turn W (get_position k o0 wp a t par ld pad).
Proof.
  unfold get_position. destruct ld; [|apply turn_nodelay]. unfold retarded_position. rewrite turn_state.
  destruct (retarded_state o0 wp a t pad) as [[vz z] az]. apply turn_nodelay.
Qed.
Lemma turn_velocity m t : get_velocity o' wp m t = turn W (get_velocity o0 wp m t).
Proof.
  unfold get_velocity. rewrite turn_ta. destruct (true_anomaly o0 wp true t) as [s c]. cbn [set_node o_ecc o_K0]. destruct (o_ecc o); apply turn_rotate.
Qed.
Lemma turn_acceleration a m t : get_acceleration o' wp a m t = turn W (get_acceleration o0 wp a m t).
Proof.
  unfold get_acceleration. rewrite turn_ta. destruct (true_anomaly o0 wp true t) as [s c]. apply turn_rotate.
Qed.
Lemma turn_rv t K u : get_radial_velocity k o' wp t K u = get_radial_velocity k o0 wp t K u.
Proof.
  unfold get_radial_velocity. destruct K as [K|]; [reflexivity|]. destruct (uto _ _); cbn [rbind]; [|reflexivity].
  unfold get_star_velocity. rewrite turn_velocity. cbn [set_node o_m_planet]. destruct (get_velocity o0 wp (o_m_planet o) t) as [[x y] z]. reflexivity.
Qed.
End R.
Lemma sqz_R (v : R * R * R) : sqz3 v = v.
Proof. destruct v as [[x y] z]. reflexivity. Qed.

Lemma node_sky : forall k (x : kargs R) o o' w, kep_init k (set_Omega x None) = Ok o -> kep_init k (set_Omega x (Some w)) = Ok o' ->
  forall t, (forall b par ld, pos k o' b t par ld = turn w (pos k o b t par ld)) /\
    (forall b, vel o' b t = turn w (vel o b t)) /\ (forall b, acc o' b t = turn w (acc o b t)) /\
    (forall K u, get_radial_velocity k o' (kep_warp o') t K u = get_radial_velocity k o (kep_warp o) t K u).
Proof.
  intros k x o o' w H H' t. rewrite node_init in H, H'. destruct (kep_init k x) as [oo|e]; [|discriminate H]. cbn [rmap] in H, H'. apply Ok_inj in H, H'. subst o o'.
  assert (Wp : kep_warp (set_node (Some w) oo) = kep_warp (set_node None oo)) by reflexivity.
  split; [|split; [|split]].
  - intros b par ld. unfold pos, get_planet_position, get_star_position, get_relative_position. rewrite Wp.
    destruct b; rewrite !sqz_R; apply (turn_position k oo (Some w)).
  - intro b. unfold vel, get_planet_velocity, get_star_velocity, get_relative_velocity. rewrite Wp. destruct b; rewrite !sqz_R; apply (turn_velocity oo (Some w)).
  - intro b. unfold acc, get_planet_acceleration, get_star_acceleration, get_relative_acceleration. rewrite Wp. destruct b; rewrite !sqz_R; apply (turn_acceleration oo (Some w)).
  - intros K u. rewrite Wp. apply (turn_rv k oo (Some w)).
Qed.
Lemma node_errors : forall {T B} {N : Num T B} k (x : kargs T) w, 
  (forall o, kep_init k x = Ok o -> exists o', kep_init k (set_Omega x w) = Ok o') /\ (forall e, kep_init k x = Err e -> kep_init k (set_Omega x w) = Err e).
Proof. intros T B N k x w. split; intros o H; rewrite node_init, H; [eexists|]; reflexivity. Qed.

(** position angles *)
Lemma turn_len w v : vx (turn w v) * vx (turn w v) + vy (turn w v) * vy (turn w v) = vx v * vx v + vy v * vy v.
Proof.
  unfold turn, vx, vy. cbn [fst snd]. assert (H := sin2_cos2 w). unfold Rsqr in H.
  replace (_ + _) with ((sin w * sin w + cos w * cos w) * (fst (fst v) * fst (fst v) + snd (fst v) * snd (fst v))) by ring. rewrite H. ring.
Qed.
Lemma turn_flux u1 u2 w P rp rst : flux_at u1 u2 (turn w P) rp rst = flux_at u1 u2 P rp rst.
Proof. unfold flux_at. rewrite turn_len. reflexivity. Qed.
Lemma node_angles : forall k (x : kargs R) o o' w, kep_init k (set_Omega x None) = Ok o -> kep_init k (set_Omega x (Some w)) = Ok o' ->
  forall t par ld,
  let '(rho, th) := get_relative_angles k o (kep_warp o) t par ld in
  let '(rho', th') := get_relative_angles k o' (kep_warp o') t par ld in
  rho' = rho /\ rho * cos th' = rho * cos (th + w) /\ rho * sin th' = rho * sin (th + w).
Proof.
  intros k x o o' w H H' t par ld. destruct (node_sky k x o o' w H H' t) as (Hp & _).
  assert (A := rel_angles_polar k o t par ld). assert (A' := rel_angles_polar k o' t par ld).
  unfold pos in Hp. specialize (Hp Relative par ld). cbv iota in Hp.
  assert (E : fst (get_relative_angles k o' (kep_warp o') t par ld) = fst (get_relative_angles k o (kep_warp o) t par ld)).
  { unfold get_relative_position in Hp. rewrite !sqz_R in Hp. assert (L := turn_len w (get_position k o (kep_warp o) (- o_a o)%num t par ld true)). rewrite <- Hp in L.
    unfold get_relative_angles. destruct (get_position k o' _ _ t par ld true) as [[X Y] Z], (get_position k o _ _ t par ld true) as [[X' Y'] Z'].
    cbn in L |- *. f_equal. unfold vx, vy in L. cbn in L. rewrite ?Rmult_1_r. exact L. }
  destruct (get_relative_angles k o (kep_warp o) t par ld) as [rho th]. destruct (get_relative_angles k o' (kep_warp o') t par ld) as [rho' th'].
  cbn in E. subst rho'. destruct A as (_ & _ & A1 & A2). destruct A' as (_ & _ & B1 & B2). rewrite Hp in B1, B2.
  unfold turn, vx, vy in A1, A2, B1, B2. cbn [fst snd] in A1, A2, B1, B2. rewrite <- A1, <- A2 in B1, B2.
  split; [reflexivity|]. rewrite cos_plus, sin_plus. split; lra.
Qed.

(** ** systems *)
Lemma flip_node {T B} {N : Num T B} (o : orbit T) w r : flip_args (set_node w o) r = set_Omega (flip_args o r) w.
Proof. unfold flip_args, set_Omega. cbn [set_node o_ecc o_Omega]. destruct (o_ecc o), w; reflexivity. Qed.
Section S.
Variables (k : consts) (n : nat) (x : kargs tens) (xs : nat -> kargs R) (os : nat -> orbit R) (o : orbit tens) (w : option tens) (ws : nat -> R).
Hypothesis kok : consts_ok k.
Hypothesis sys : system k n x xs os.
Hypothesis Ho : kep_init k x = Ok o.
Hypothesis Hw : opt_values n w ws.
Let wj j := match w with None => None | Some _ => Some (ws j) end.
Lemma node_system : system k n (set_Omega x w) (fun j => set_Omega (xs j) (wj j)) (fun j => set_node (wj j) (os j)).
Proof.
  destruct sys as [Hn Ha Hat Hi Hph Hd]. constructor.
  - exact Hn.
  - destruct Ha. constructor; try assumption. cbn [set_Omega ka_Omega]. destruct w as [a|]; [apply Hw|exact I].
  - intros j Hj. change (args_at (at_planet j) (set_Omega x w)) with (set_Omega (args_at (at_planet j) x) (option_map (fun a : tens => aget a (at_planet j)) w)).
    change (fin_args (set_Omega (xs j) (wj j))) with (set_Omega (fin_args (xs j)) (option_map Fin (wj j))). rewrite (Hat j Hj). f_equal.
    unfold wj. destruct w as [a|]; [|reflexivity]. cbn [option_map]. rewrite (proj2 Hw j Hj). reflexivity.
  - intros j Hj. rewrite node_init, (Hi j Hj). reflexivity.
  - intros j Hj. destruct (Hph j Hj). constructor; assumption.
  - intros j Hj. exact (Hd j Hj).
Qed.
Lemma node_o : kep_init k (set_Omega x w) = Ok (set_node w o).
Proof. rewrite node_init, Ho. reflexivity. Qed.
Lemma node_mask cp t r texp ld : oa_in_transit (kep_api k cp (set_node w o)) t r texp ld = oa_in_transit (kep_api k cp o) t r texp ld.
Proof. reflexivity. Qed.
Lemma node_pos j t ld : (j < n)%nat -> exists a a', pos k (set_node (wj j) (os j)) Relative t None ld = turn a (pos k (set_node None (os j)) Relative t None ld) /\
  pos k (os j) Relative t None ld = turn a' (pos k (set_node None (os j)) Relative t None ld).
Proof.
  intro Hj. assert (E : exists v, os j = set_node v (os j)).
  { assert (I := sy_init _ _ _ _ _ sys j Hj). assert (X : set_Omega (xs j) (ka_Omega (xs j)) = xs j) by (destruct (xs j); reflexivity).
    assert (E := node_init k (xs j) (ka_Omega (xs j))). rewrite X, I in E. cbn [rmap] in E. apply Ok_inj in E. eexists. exact E. }
  destruct E as [v E]. exists (match wj j with None => 0 | Some w => w end), (match v with None => 0 | Some w => w end).
  split; [|rewrite E at 1]; unfold pos, get_relative_position; rewrite !sqz_R.
  - apply (turn_position k (os j) (wj j)).
  - apply (turn_position k (os j) v).
Qed.
Lemma node_light_S u1 u2 cp r rs N t ts texp es os' order use ld :
  disk_flux u1 u2 <> 0 -> elements n r rs -> is_vector N t -> (forall m, (m < N)%nat -> aget t (at_time m) = Fin (ts m)) -> opt_exposures N texp es ->
  (ld = true -> forall j, (j < n)%nat -> slow k (os j)) ->
  same_light n N
    (get_light_curve (ld_init (Fin u1) (Fin u2)) (Some (kep_api k cp o)) (Some r) (Some t) texp os' order use ld)
    (get_light_curve (ld_init (Fin u1) (Fin u2)) (Some (kep_api k cp (set_node w o))) (Some r) (Some t) texp os' order use ld).
Proof.
  intros Hd Hr Ht Hts He Hl. destruct (kepler_answers k n x xs os o cp kok sys Ho) as [HA Hs]. destruct (kepler_answers k n _ _ _ _ cp kok node_system node_o) as [HA' Hs'].
  assert (Q : answers (kep_api k cp o) ld n (fun j t => pos k (os j) Relative t None ld) /\ answers (kep_api k cp (set_node w o)) ld n (fun j t => pos k (set_node (wj j) (os j)) Relative t None ld)).
  { destruct ld; [|split; assumption]. split.
    - apply (delay_answers k n x xs os o cp kok sys Ho). apply Hl. reflexivity.
    - apply (delay_answers k n _ _ _ _ cp kok node_system node_o). intros j Hj. apply (Hl eq_refl j Hj). }
  destruct Q as [Q Q'].
  apply (light_same u1 u2 _ _ ld n _ _ _ _ r r rs rs N t t ts ts texp es os' order use Hd Q Q' Hs Hs'); try assumption.
  - intros j Hj. assert (P := ph_r_star _ (sy_phys _ _ _ _ _ sys j Hj)). lra.
  - intros j Hj. assert (P := ph_r_star _ (sy_phys _ _ _ _ _ sys j Hj)). cbn [set_node o_r_star]. lra.
  - right. reflexivity.
  - intros nodes weights _ m j Hm Hj. apply mean_same. intro y. destruct (node_pos j (ts m + y) ld Hj) as (a & a' & E & E'). rewrite E, E', !turn_flux. reflexivity.
Qed.
End S.

Lemma node_light : forall k n (x : kargs tens) xs os o w ws, consts_ok k -> system k n x xs os -> kep_init k x = Ok o -> opt_values n w ws ->
  exists o', kep_init k (set_Omega x w) = Ok o' /\
  forall u1 u2 cp r rs N t ts texp es os' order use ld,
  disk_flux u1 u2 <> 0 -> elements n r rs -> is_vector N t -> (forall m, (m < N)%nat -> aget t (at_time m) = Fin (ts m)) -> opt_exposures N texp es ->
  (ld = true -> forall j, (j < n)%nat -> slow k (os j)) ->
  same_light n N
    (get_light_curve (ld_init (Fin u1) (Fin u2)) (Some (kep_api k cp o)) (Some r) (Some t) texp os' order use ld)
    (get_light_curve (ld_init (Fin u1) (Fin u2)) (Some (kep_api k cp o')) (Some r) (Some t) texp os' order use ld).
Proof.
  intros k n x xs os o w ws kok sys Ho Hw. exists (set_node w o). split; [apply node_o, Ho|]. intros u1 u2 cp r rs N t ts texp es os' order use ld.
  exact (node_light_S k n x xs os o w ws kok sys Ho Hw u1 u2 cp r rs N t ts texp es os' order use ld).
Qed.
Lemma node_in_transit : forall k (x : kargs tens) o w o', kep_init k x = Ok o -> kep_init k (set_Omega x w) = Ok o' ->
  forall cp t r texp ld, oa_in_transit (kep_api k cp o') t r texp ld = oa_in_transit (kep_api k cp o) t r texp ld.
Proof. intros k x o w o' H H' cp t r texp ld. rewrite node_init, H in H'. apply Ok_inj in H'. subst o'. reflexivity. Qed.
Lemma node_secondary : forall k n (x : kargs tens) xs os o w ws, consts_ok k -> system k n x xs os -> kep_init k x = Ok o -> opt_values n w ws ->
  exists o', kep_init k (set_Omega x w) = Ok o' /\
  forall u1 u2 v1 v2 s ss cp r rs N t ts texp es os' order use ld,
  disk_flux u1 u2 <> 0 -> disk_flux v1 v2 <> 0 -> planet_values n r rs -> (forall j, (j < n)%nat -> 0 < rs j) -> one_each n r -> one_each n (o_r_star o) ->
  planet_values n s ss -> (forall j, (j < n)%nat -> 0 <= ss j) ->
  is_vector N t -> (forall m, (m < N)%nat -> aget t (at_time m) = Fin (ts m)) -> opt_exposures N texp es ->
  (ld = true -> forall j, (j < n)%nat -> slow k (os j)) ->
  let S := {| se_primary := ld_init (Fin u1) (Fin u2); se_secondary := ld_init (Fin v1) (Fin v2); se_ratio := s |} in
  same_light n N (secondary_light_curve k cp S o r (Some t) texp os' order use ld) (secondary_light_curve k cp S o' r (Some t) texp os' order use ld).
Proof.
  intros k n x xs os o w ws kok sys Ho Hw. exists (set_node w o). split; [apply node_o, Ho|].
  intros u1 u2 v1 v2 s ss cp r rs N t ts texp es os' order use ld D1 D2 Hr Hr0 O1 O2 Hs Hs0 Ht Hts He Hl S.
  destruct (flip_system k n x xs os o kok sys Ho r rs Hr Hr0) as (o2 & os2 & Hf & sys2 & F2).
  assert (Hf' : flip k (set_node w o) r = Ok (set_node w o2)) by (unfold flip; rewrite flip_node; apply node_o; exact Hf).
  apply (second_same k n x xs os o _ _ _ _ r rs r rs o2 (set_node w o2) cp u1 u2 v1 v2 s ss N t t texp os' order use ld kok sys Ho Hr (node_system k n x xs os w ws sys Hw) (node_o k x o w Ho) Hr Hf Hf' Hs Hs0 Hr0 Hr0).
  - reflexivity.
  - apply (node_light_S k n x xs os o w ws kok sys Ho Hw u1 u2 cp r rs N t ts texp es); try assumption. apply one_each_elements; assumption.
  - apply (node_light_S k n _ _ os2 o2 w ws kok sys2 Hf Hw v1 v2 cp (o_r_star o) (fun j => o_r_star (os j)) N t ts texp es); try assumption.
    + apply one_each_elements; [assumption|]. apply (rstar_numbers k n x xs os o kok sys Ho).
    + intros El j Hj. apply (flip_slow k (xs j) (os j) (rs j) (os2 j) kok (sy_init _ _ _ _ _ sys j Hj) (sy_phys _ _ _ _ _ sys j Hj) (Hr0 j Hj)); [|apply Hl; assumption].
      exact (sy_init _ _ _ _ _ sys2 j Hj).
Qed.
