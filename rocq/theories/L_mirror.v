(** * Mirror images *)
From Coq Require Import Reals List Bool Arith ZArith Lra Lia Psatz.
From Verif Require Import Num CoreOps Inst CoreFlux M_units M_kepler M_fin M_tensor M_simple M_ttv M_limbdark M_secondary
  Spec_orbit Spec_params Spec_array Spec_light Spec_secondary Spec_delay Spec_sym
  L_real L_kepop L_orbit L_params3 L_fl L_fl2 L_fl3 L_tens L_shape L_shapeS L_transit3 L_transit4 L_array L_motion L_pmotion
  L_reshape L_light1 L_light2 L_light3 L_light4 L_light7 L_light8 L_second L_second2 L_delay L_delay2 L_sym L_sym2 L_node.
Import ListNotations.
Local Notation length := List.length.
Open Scope R_scope.

Definition set_mirror (o : orbit R) : orbit R :=
  {| o_a := o_a o; o_period := o_period o; o_rho_star := o_rho_star o; o_r_star := o_r_star o;
     o_m_star := o_m_star o; o_m_planet := o_m_planet o; o_m_total := o_m_total o;
     o_n := o_n o; o_a_star := o_a_star o; o_a_planet := o_a_planet o; o_K0 := o_K0 o;
     o_Omega := o_Omega o; o_ecc := o_ecc o; o_M0 := o_M0 o; o_dcosidb := o_dcosidb o;
     o_b := - o_b o; o_cos_incl := - o_cos_incl o; o_incl := PI - o_incl o; o_sin_incl := o_sin_incl o;
     o_t0 := o_t0 o; o_tper := o_tper o; o_tref := o_tref o; o_jac := o_jac o; o_duration := o_duration o |}.
Definition mirror_tuple (q : R * R * R * option R) : R * R * R * option R :=
  let '(b, c, i, d) := q in (- b, - c, PI - i, d).
Lemma mirror_duration (x : kargs R) : kep_duration (mirror x) = kep_duration x.
Proof.
  unfold kep_duration, mirror. cbn [set_incl ka_ecc ka_duration ka_r_star ka_b ka_period ka_ror ka_a].
  destruct (ka_ecc x), (ka_duration x); try reflexivity. destruct (ka_b x) as [b|]; [|reflexivity]. cbn [option_map]. destruct (ka_period x) as [p|]; [|reflexivity].
  assert (E : get_aor (qv q) (qv p) (- b) (ka_ror x) = get_aor (qv q) (qv p) b (ka_ror x)).
  { unfold get_aor. assert (E : ((- b)%R ^ 2)%num = (b ^ 2)%num) by (cbn; ring). rewrite E. reflexivity. }
  rewrite E. reflexivity.
Qed.
Lemma mirror_incl k (x : kargs R) dur ed f dc a p ap rs : dur = None -> kep_incl k (mirror x) dur ed f dc a p ap rs = rmap mirror_tuple (kep_incl k x dur ed f dc a p ap rs).
Proof.
  intro D. subst dur. unfold kep_incl, mirror. cbn [set_incl ka_b ka_incl is_none negb orb]. destruct (ka_b x) as [b|]; cbn [option_map].
  - destruct (ka_incl x); cbn [option_map is_none negb orb rmap]; [reflexivity|]. cbn [mirror_tuple]. f_equal. f_equal. f_equal; [f_equal|]; cbn; [ring|].
    rewrite <- acos_opp. f_equal. ring.
  - destruct (ka_incl x) as [i|]; cbn [option_map rmap mirror_tuple].
    + assert (E : @ncos R bool _ (PI - i) = - cos i) by (cbn; apply Rtrigo_facts.cos_pi_minus). rewrite E. f_equal. f_equal. f_equal. f_equal. cbn. unfold Rdiv. ring.
    + f_equal. f_equal. f_equal; [f_equal|]; cbn; lra.
Qed.
Lemma mirror_init k (x : kargs R) : no_ecc_duration x -> kep_init k (mirror x) = rmap set_mirror (kep_init k x).
Proof.
  intro ND. unfold kep_init. rewrite mirror_duration.
  change (kep_units (mirror x)) with (kep_units x).
  change (kep_omega (mirror x)) with (kep_omega x). change (ka_period (mirror x)) with (ka_period x). change (ka_m_star (mirror x)) with (ka_m_star x). change (ka_Omega (mirror x)) with (ka_Omega x).
  destruct (kep_units x) as [[mp rho]|]; cbn [rbind rmap]; [|reflexivity].
  destruct (kep_duration x) as [[[[a rs] dur] da]|] eqn:ED; cbn [rbind rmap]; [|reflexivity].
  assert (Dn : dur = None).
  { unfold kep_duration in ED. destruct ND as [E|E]; rewrite E in ED.
    - destruct (ka_duration x); [|apply Ok_inj in ED; congruence]. destruct (ka_b x); [|discriminate ED]. destruct (ka_period x); [|discriminate ED]. destruct (get_aor _ _ _ _). apply Ok_inj in ED. congruence.
    - destruct (ka_ecc x); apply Ok_inj in ED; congruence. }
  destruct (consistent_inputs k a (ka_period x) rho rs (ka_m_star x) mp) as [[[[[[a' p] rho'] rs'] ms] mp']|]; cbn [rbind rmap]; [|reflexivity].
  destruct (kep_omega x) as [ed|]; cbn [rbind rmap]; [|reflexivity].
  rewrite (mirror_incl k x dur) by exact Dn.
  match goal with |- context [kep_incl k x ?a ?b ?c ?d ?e ?f ?g ?h] => destruct (kep_incl k x a b c d e f g h) as [[[[bb ci] ii] du]|] end; cbn [rbind rmap mirror_tuple]; [|reflexivity].
  match goal with |- context [kep_times (mirror x) ?a ?b ?c] => change (kep_times (mirror x) a b c) with (kep_times x a b c);
    destruct (kep_times x a b c) as [[t0 tp]|] end; cbn [rbind rmap]; [|reflexivity].
  unfold set_mirror. cbn [o_a o_period o_rho_star o_r_star o_m_star o_m_planet o_m_total o_n o_a_star o_a_planet o_K0 o_Omega o_ecc o_M0 o_dcosidb o_b o_cos_incl o_incl o_sin_incl o_t0 o_tper o_tref o_jac o_duration].
  assert (E : @nsin R bool _ (PI - ii) = nsin ii) by (cbn; apply sin_PI_x). rewrite E. reflexivity.
Qed.
Lemma mirror_errors : forall k (x : kargs R), no_ecc_duration x -> (forall o, kep_init k x = Ok o -> exists o', kep_init k (mirror x) = Ok o') /\ (forall e, kep_init k x = Err e -> kep_init k (mirror x) = Err e).
Proof. intros k x ND. split; intros o H; rewrite (mirror_init k x ND), H; [eexists|]; reflexivity. Qed.

Lemma mirror_rotate (o : orbit R) w x y : o_Omega o = node_of w -> rotate_vector (set_mirror o) x y = across (match w with None => 0 | Some w => w end) (rotate_vector o x y).
Proof.
  intro H. unfold rotate_vector, across, vx, vy, vz. change (o_Omega (set_mirror o)) with (o_Omega o). change (o_ecc (set_mirror o)) with (o_ecc o). rewrite H.
  destruct (match o_ecc o with None => _ | Some d => _ end) as [x1 y1]. cbn [set_mirror o_cos_incl o_sin_incl]. destruct w as [w|]; cbn [node_of O_cos O_sin fst snd].
  - assert (S := sin2_cos2 w). unfold Rsqr in S. apply f_equal2; [apply f_equal2|reflexivity]; rewrite cos_2a, sin_2a; cbn; set (c := cos w) in *; set (s := sin w) in *.
    + replace (_ + _) with ((s * s + c * c) * (c * x1 + s * (o_cos_incl o * y1))) by ring. rewrite S. ring.
    + replace (_ - (c * c - s * s) * _) with ((s * s + c * c) * (s * x1 - c * (o_cos_incl o * y1))) by ring. rewrite S. ring.
  - rewrite Rmult_0_r, cos_0, sin_0. apply f_equal2; [apply f_equal2|]; cbn; ring.
Qed.
Section R.
Variables (k : consts) (o : orbit R) (w : option R) (wp : bool -> R -> R).
Hypothesis Ow : o_Omega o = node_of w.
Notation W := (match w with None => 0 | Some w => w end).
Notation o' := (set_mirror o).
Lemma mirror_ta pad t : true_anomaly o' wp pad t = true_anomaly o wp pad t.
Proof. reflexivity. Qed.
Lemma mirror_nodelay a t par pad : position_nodelay k o' wp a t par pad = across W (position_nodelay k o wp a t par pad).
Proof.
  unfold position_nodelay. rewrite mirror_ta. destruct (true_anomaly o wp pad t) as [s c]. apply mirror_rotate, Ow.
Qed.
Lemma mirror_state a t pad : retarded_state o' wp a t pad = retarded_state o wp a t pad.
Proof.
  unfold retarded_state. rewrite mirror_ta. destruct (true_anomaly o wp pad t) as [s c]. change (o_ecc o') with (o_ecc o). change (o_period o') with (o_period o). change (o_sin_incl o') with (o_sin_incl o).
  destruct (o_ecc o) as [d|]; rewrite (mirror_rotate o w _ _ Ow); unfold across, vz; match goal with |- context [rotate_vector ?a ?b ?c] => destruct (rotate_vector a b c) as [[? ?] ?] end; reflexivity.
Qed.
Lemma mirror_position a t par ld pad : get_position k o' wp a t par ld pad = across W (get_position k o wp a t par ld pad).
Proof.
  unfold get_position. destruct ld; [|apply mirror_nodelay]. unfold retarded_position. rewrite mirror_state.
  destruct (retarded_state o wp a t pad) as [[vz z] az]. apply mirror_nodelay.
Qed.
Lemma mirror_velocity m t : get_velocity o' wp m t = across W (get_velocity o wp m t).
Proof.
  unfold get_velocity. rewrite mirror_ta. destruct (true_anomaly o wp true t) as [s c]. change (o_ecc o') with (o_ecc o). change (o_K0 o') with (o_K0 o). destruct (o_ecc o); apply mirror_rotate, Ow.
Qed.
Lemma mirror_acceleration a m t : get_acceleration o' wp a m t = across W (get_acceleration o wp a m t).
Proof.
  unfold get_acceleration. rewrite mirror_ta. destruct (true_anomaly o wp true t) as [s c]. apply mirror_rotate, Ow.
Qed.
Lemma mirror_rv t K u : get_radial_velocity k o' wp t K u = get_radial_velocity k o wp t K u.
Proof.
  unfold get_radial_velocity. destruct K as [K|]; [reflexivity|]. destruct (uto _ _); cbn [rbind]; [|reflexivity].
  unfold get_star_velocity. rewrite mirror_velocity. change (o_m_planet o') with (o_m_planet o). destruct (get_velocity o wp (o_m_planet o) t) as [[x y] z]. reflexivity.
Qed.
End R.
Lemma node_known k (x : kargs R) o : kep_init k x = Ok o -> o_Omega o = node_of (ka_Omega x).
Proof.
  intro H. assert (E : set_Omega x (ka_Omega x) = x) by (destruct x; reflexivity). assert (I := node_init k x (ka_Omega x)). rewrite E, H in I. cbn [rmap] in I. apply Ok_inj in I. rewrite I. reflexivity.
Qed.

Lemma mirror_sky : forall k (x : kargs R) o o', no_ecc_duration x -> kep_init k x = Ok o -> kep_init k (mirror x) = Ok o' ->
  forall t, (forall b par ld, pos k o' b t par ld = across (node_angle x) (pos k o b t par ld)) /\
    (forall b, vel o' b t = across (node_angle x) (vel o b t)) /\ (forall b, acc o' b t = across (node_angle x) (acc o b t)) /\
    (forall K u, get_radial_velocity k o' (kep_warp o') t K u = get_radial_velocity k o (kep_warp o) t K u).
Proof.
  intros k x o o' ND H H' t. assert (Ow := node_known k x o H). rewrite (mirror_init k x ND), H in H'. cbn [rmap] in H'. apply Ok_inj in H'. subst o'.
  assert (Wp : kep_warp (set_mirror o) = kep_warp o) by reflexivity. unfold node_angle.
  split; [|split; [|split]].
  - intros b par ld. unfold pos, get_planet_position, get_star_position, get_relative_position. rewrite Wp.
    destruct b; rewrite !sqz_R; apply (mirror_position k o _ _ Ow).
  - intro b. unfold vel, get_planet_velocity, get_star_velocity, get_relative_velocity. rewrite Wp. destruct b; rewrite !sqz_R; apply (mirror_velocity o _ _ Ow).
  - intro b. unfold acc, get_planet_acceleration, get_star_acceleration, get_relative_acceleration. rewrite Wp. destruct b; rewrite !sqz_R; apply (mirror_acceleration o _ _ Ow).
  - intros K u. rewrite Wp. apply (mirror_rv k o _ _ Ow).
Qed.
Lemma mirror_elements : forall k (x : kargs R) o o', no_ecc_duration x -> kep_init k x = Ok o -> kep_init k (mirror x) = Ok o' ->
  o_b o' = - o_b o /\ o_incl o' = PI - o_incl o /\ o_cos_incl o' = - o_cos_incl o /\ o_a o' = o_a o /\ o_period o' = o_period o /\
  o_r_star o' = o_r_star o /\ o_m_star o' = o_m_star o /\ o_rho_star o' = o_rho_star o /\ o_m_planet o' = o_m_planet o /\ o_t0 o' = o_t0 o /\ o_tper o' = o_tper o.
Proof. intros k x o o' ND H H'. rewrite (mirror_init k x ND), H in H'. cbn [rmap] in H'. apply Ok_inj in H'. subst o'. repeat split. Qed.

(** ** systems *)
Lemma across_len w v : vx (across w v) * vx (across w v) + vy (across w v) * vy (across w v) = vx v * vx v + vy v * vy v.
Proof.
  unfold across, vx, vy. cbn [fst snd]. assert (H := sin2_cos2 (2 * w)). unfold Rsqr in H. set (s := sin (2 * w)) in *. set (c := cos (2 * w)) in *.
  replace (_ + _) with ((s * s + c * c) * (fst (fst v) * fst (fst v) + snd (fst v) * snd (fst v))) by ring. rewrite H. ring.
Qed.
Lemma across_flux u1 u2 w P rp rst : flux_at u1 u2 (across w P) rp rst = flux_at u1 u2 P rp rst.
Proof. unfold flux_at. rewrite across_len. reflexivity. Qed.
Lemma mirror_phys o : physical o -> physical (set_mirror o).
Proof. intros []. constructor; try assumption. cbn [set_mirror o_cos_incl]. lra. Qed.
Lemma mirror_slow k o : slow k o -> slow k (set_mirror o).
Proof. exact (fun H => H). Qed.
Lemma mirror_flip k o r : flip k (set_mirror o) r = rmap set_mirror (flip k o r).
Proof.
  assert (E : flip_args (set_mirror o) r = mirror (flip_args o r)).
  { unfold flip_args, mirror. change (o_ecc (set_mirror o)) with (o_ecc o). destruct (o_ecc o); reflexivity. }
  unfold flip. rewrite E. apply mirror_init. right. unfold flip_args. destruct (o_ecc o); reflexivity.
Qed.
Lemma mirror_system k n x xs os x' : consts_ok k -> system k n x xs os -> batch n x' (fun j => mirror (xs j)) ->
  system k n x' (fun j => mirror (xs j)) (fun j => set_mirror (os j)) /\ exists o', kep_init k x' = Ok o'.
Proof.
  intros kok [Hn Ha Hat Hi Hph Hd] [B1 B2].
  assert (S' : system k n x' (fun j => mirror (xs j)) (fun j => set_mirror (os j))).
  { constructor; try assumption.
    - intros j Hj. rewrite (mirror_init k _ (Hd j Hj)), (Hi j Hj). reflexivity.
    - intros j Hj. apply mirror_phys, Hph, Hj. }
  split; [exact S'|]. destruct (system_orbit k n x' _ _ kok S') as (o' & H & _). exists o'. exact H.
Qed.
Lemma mirror_mask o cp t r e : (o_ecc o = None \/ even_solver cp) -> transit_mask (fin_orbit o) (kep_warp (fin_orbit o)) cp (Fin t) (Fin r) e
  = transit_mask (fin_orbit (set_mirror o)) (kep_warp (fin_orbit (set_mirror o))) cp (Fin t) (Fin r) e.
Proof.
  intro H. unfold transit_mask. change (since_transit (fin_orbit (set_mirror o)) (kep_warp (fin_orbit (set_mirror o))) (Fin t)) with (since_transit (fin_orbit o) (kep_warp (fin_orbit o)) (Fin t)).
  assert (E : transit_window (fin_orbit (set_mirror o)) cp (Fin r) = transit_window (fin_orbit o) cp (Fin r)).
  { unfold transit_window. change (o_ecc (fin_orbit (set_mirror o))) with (o_ecc (fin_orbit o)). destruct H as [H|H].
    - change (o_ecc (fin_orbit o)) with (option_map (map_eccd Fin) (o_ecc o)). rewrite H. cbn [option_map].
      assert (E : (o_b (fin_orbit (set_mirror o)) ^ 2)%num = (o_b (fin_orbit o) ^ 2)%num).
      { change (o_b (fin_orbit (set_mirror o))) with (Fin (- o_b o)). change (o_b (fin_orbit o)) with (Fin (o_b o)). cbn. f_equal. ring. }
      rewrite E. reflexivity.
    - destruct (o_ecc (fin_orbit o)) as [d|]; [|].
      + change (o_cos_incl (fin_orbit (set_mirror o)) + nzl (o_a (fin_orbit (set_mirror o))))%num with (Fin (- o_cos_incl o + 0)).
        change (o_cos_incl (fin_orbit o) + nzl (o_a (fin_orbit o)))%num with (Fin (o_cos_incl o + 0)). rewrite !Rplus_0_r. rewrite H. reflexivity.
      + assert (E : (o_b (fin_orbit (set_mirror o)) ^ 2)%num = (o_b (fin_orbit o) ^ 2)%num).
        { change (o_b (fin_orbit (set_mirror o))) with (Fin (- o_b o)). change (o_b (fin_orbit o)) with (Fin (o_b o)). cbn. f_equal. ring. }
        rewrite E. reflexivity. }
  rewrite E. reflexivity.
Qed.
Section S.
Variables (k : consts) (n N : nat) (xs : nat -> kargs R) (os os2 : nat -> orbit R) (ts : nat -> R).
Hypothesis E : forall j, (j < n)%nat -> os2 j = set_mirror (os j).
Hypothesis Om : forall j, (j < n)%nat -> exists w, o_Omega (os j) = node_of w.
Lemma mirror_same_mask rs cp : even_solver cp \/ (forall j, (j < n)%nat -> o_ecc (os j) = None) -> same_mask n N os os2 ts ts rs rs cp.
Proof. intros H m j e _ Hj. rewrite (E j Hj). apply mirror_mask. destruct H as [H|H]; [right; exact H|left; apply H, Hj]. Qed.
Lemma mirror_same_flux rs u1 u2 ld : same_flux k n N os os2 ts ts rs rs u1 u2 ld.
Proof.
  intros m j y _ Hj. destruct (Om j Hj) as [w Ow]. rewrite (E j Hj). change (o_r_star (set_mirror (os j))) with (o_r_star (os j)).
  unfold pos, get_relative_position. rewrite !sqz_R. change (kep_warp (set_mirror (os j))) with (kep_warp (os j)). change (o_a (set_mirror (os j))) with (o_a (os j)).
  rewrite (mirror_position k (os j) w _ Ow), across_flux. reflexivity.
Qed.
End S.
Lemma circ_ecc k n x xs os j : system k n x xs os -> (j < n)%nat -> ka_ecc (xs j) = None -> o_ecc (os j) = None.
Proof. intros sys Hj H. apply (kep_circ k (xs j) (os j) (sy_init _ _ _ _ _ sys j Hj)). exact H. Qed.

Lemma mirror_in_transit : forall k n x xs os o x', consts_ok k -> system k n x xs os -> kep_init k x = Ok o -> batch n x' (fun j => mirror (xs j)) ->
  exists o', kep_init k x' = Ok o' /\
  forall cp N t ts r rs te es ld,
  even_solver cp \/ (forall j, (j < n)%nat -> ka_ecc (xs j) = None) ->
  is_vector N t -> (forall m, (m < N)%nat -> aget t (at_time m) = Fin (ts m)) ->
  planet_values n r rs -> opt_values n te es ->
  oa_in_transit (kep_api k (lift_cp cp) o') t r te ld = oa_in_transit (kep_api k (lift_cp cp) o) t r te ld.
Proof.
  intros k n x xs os o x' kok sys Ho B. destruct (mirror_system k n x xs os x' kok sys B) as [sys' [o' Ho']]. exists o'. split; [exact Ho'|].
  intros cp N t ts r rs te es ld Hc Ht Hts Hr He. symmetry.
  apply (pair_in_transit k n N x x' xs _ os _ o o' kok sys sys' Ho Ho' t t ts _ Ht Hts Ht Hts rs rs cp r r te es ld Hr Hr He). apply mirror_same_mask; [reflexivity|].
  destruct Hc as [Hc|Hc]; [left; exact Hc|right]. intros j Hj. apply (circ_ecc k n x xs os j sys Hj), Hc, Hj.
Qed.
Lemma mirror_light : forall k n x xs os o x', consts_ok k -> system k n x xs os -> kep_init k x = Ok o -> batch n x' (fun j => mirror (xs j)) ->
  exists o', kep_init k x' = Ok o' /\
  forall u1 u2 cp N t ts r rs texp es osam order use ld,
  even_solver cp \/ (forall j, (j < n)%nat -> ka_ecc (xs j) = None) \/ use = Some false \/ ld = true ->
  is_vector N t -> (forall m, (m < N)%nat -> aget t (at_time m) = Fin (ts m)) ->
  disk_flux u1 u2 <> 0 -> elements n r rs -> opt_exposures N texp es ->
  (ld = true -> forall j, (j < n)%nat -> slow k (os j)) -> (use = Some false \/ ld = true \/ (exists e, texp = one_texp e)) ->
  same_light n N
    (get_light_curve (ld_init (Fin u1) (Fin u2)) (Some (kep_api k (lift_cp cp) o)) (Some r) (Some t) texp osam order use ld)
    (get_light_curve (ld_init (Fin u1) (Fin u2)) (Some (kep_api k (lift_cp cp) o')) (Some r) (Some t) texp osam order use ld).
Proof.
  intros k n x xs os o x' kok sys Ho B. destruct (mirror_system k n x xs os x' kok sys B) as [sys' [o' Ho']]. exists o'. split; [exact Ho'|].
  intros u1 u2 cp N t ts r rs texp es osam order use ld Hc Ht Hts Hd Hr He Hl Hu.
  apply (pair_light k n N x x' xs _ os _ o o' kok sys sys' Ho Ho' t t ts _ Ht Hts Ht Hts rs rs u1 u2 cp r r texp es osam order use ld Hd Hr Hr He).
  - intros El j Hj. split; [|apply mirror_slow]; apply Hl; assumption.
  - apply mirror_same_flux; [reflexivity|]. intros j Hj. eexists. apply (node_known k (xs j)), (sy_init _ _ _ _ _ sys j Hj).
  - destruct Hc as [Hc|[Hc|[Hc|Hc]]]; [| |left; exact Hc|right; left; exact Hc]; (destruct Hu as [Hu|[Hu|Hu]]; [left; exact Hu|right; left; exact Hu|right; right; split; [exact Hu|]]).
    + apply mirror_same_mask; [reflexivity|left; exact Hc].
    + apply mirror_same_mask; [reflexivity|right]. intros j Hj. apply (circ_ecc k n x xs os j sys Hj), Hc, Hj.
Qed.
Lemma mirror_secondary : forall k n x xs os o x', consts_ok k -> system k n x xs os -> kep_init k x = Ok o -> batch n x' (fun j => mirror (xs j)) ->
  exists o', kep_init k x' = Ok o' /\
  forall u1 u2 v1 v2 s ss cp r rs N t ts texp es osam order use ld,
  even_solver cp \/ (forall j, (j < n)%nat -> ka_ecc (xs j) = None) \/ use = Some false \/ ld = true ->
  disk_flux u1 u2 <> 0 -> disk_flux v1 v2 <> 0 -> planet_values n r rs -> (forall j, (j < n)%nat -> 0 < rs j) -> one_each n r -> one_each n (o_r_star o) -> one_each n (o_r_star o') ->
  planet_values n s ss -> (forall j, (j < n)%nat -> 0 <= ss j) ->
  is_vector N t -> (forall m, (m < N)%nat -> aget t (at_time m) = Fin (ts m)) -> opt_exposures N texp es ->
  (ld = true -> forall j, (j < n)%nat -> slow k (os j)) -> (use = Some false \/ ld = true \/ (exists e, texp = one_texp e)) ->
  let S := {| se_primary := ld_init (Fin u1) (Fin u2); se_secondary := ld_init (Fin v1) (Fin v2); se_ratio := s |} in
  same_light n N (secondary_light_curve k (lift_cp cp) S o r (Some t) texp osam order use ld) (secondary_light_curve k (lift_cp cp) S o' r (Some t) texp osam order use ld).
Proof.
  intros k n x xs os o x' kok sys Ho B. destruct (mirror_system k n x xs os x' kok sys B) as [sys' [o' Ho']]. exists o'. split; [exact Ho'|].
  intros u1 u2 v1 v2 s ss cp r rs N t ts texp es osam order use ld Hc D1 D2 Hr Hr0 O1 O2 O2' Hs Hs0 Ht Hts He Hl Hu.
  assert (Hc' : use = Some false \/ ld = true \/ (exists e, texp = one_texp e) /\ (even_solver cp \/ (forall j, (j < n)%nat -> o_ecc (os j) = None))).
  { destruct Hc as [Hc|[Hc|[Hc|Hc]]]; [| |left; exact Hc|right; left; exact Hc]; (destruct Hu as [Hu|[Hu|Hu]]; [left; exact Hu|right; left; exact Hu|right; right; split; [exact Hu|]]).
    - left; exact Hc.
    - right. intros j Hj. apply (circ_ecc k n x xs os j sys Hj), Hc, Hj. }
  assert (Om : forall j, (j < n)%nat -> exists w, o_Omega (os j) = node_of w) by (intros j Hj; eexists; apply (node_known k (xs j)), (sy_init _ _ _ _ _ sys j Hj)).
  apply (pair_secondary k n N x x' xs _ os _ o o' kok sys sys' Ho Ho' t t ts ts Ht Hts Ht Hts r r rs rs Hr Hr Hr0 Hr0 O1 O1 O2 O2' (fun j _ => eq_refl) u1 u2 v1 v2 s ss cp texp es osam order use ld D1 D2 Hs Hs0 He).
  - intros El j Hj. split; [|apply mirror_slow]; apply Hl; assumption.
  - apply mirror_same_flux; [reflexivity|exact Om].
  - destruct Hc' as [C|[C|[C1 C2]]]; [left; exact C|right; left; exact C|right; right; split; [exact C1|]]. apply mirror_same_mask; [reflexivity|exact C2].
  - intros os2 os2' F. assert (E : forall j, (j < n)%nat -> os2' j = set_mirror (os2 j)).
    { intros j Hj. destruct (F j Hj) as [F1 F2]. change (flip k (set_mirror (os j)) (rs j) = Ok (os2' j)) in F2. rewrite mirror_flip, F1 in F2. apply Ok_inj in F2. symmetry. exact F2. }
    split; [apply mirror_same_flux; [exact E|]|].
    + intros j Hj. destruct (F j Hj) as [F1 _]. eexists. apply (node_known k _ _ F1).
    + destruct Hc' as [C|[C|[C1 C2]]]; [left; exact C|right; left; exact C|right; right; split; [exact C1|]]. apply mirror_same_mask; [exact E|]. destruct C2 as [C2|C2]; [left; exact C2|right].
      intros j Hj. destruct (F j Hj) as [F1 _]. apply (kep_circ k _ _ F1). unfold flip_args. rewrite (C2 j Hj). reflexivity.
Qed.
