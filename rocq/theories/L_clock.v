(** * The origin of time *)
From Coq Require Import Reals List Bool Arith ZArith Lra Lia Psatz.
From Verif Require Import Num CoreOps Inst CoreFlux M_units M_kepler M_fin M_tensor M_simple M_ttv M_limbdark M_secondary
  Spec_orbit Spec_params Spec_array Spec_light Spec_secondary Spec_delay Spec_sym
  L_real L_kepop L_orbit L_params3 L_fl L_fl2 L_fl3 L_tens L_shape L_shapeS L_transit3 L_transit4 L_array L_motion L_pmotion
  L_reshape L_light1 L_light2 L_light3 L_light4 L_light7 L_light8 L_second L_second2 L_delay L_delay2 L_sym L_sym2.
Import ListNotations.
Local Notation length := List.length.
Open Scope R_scope.

Definition set_clock (d : R) (o : orbit R) : orbit R :=
  {| o_a := o_a o; o_period := o_period o; o_rho_star := o_rho_star o; o_r_star := o_r_star o;
     o_m_star := o_m_star o; o_m_planet := o_m_planet o; o_m_total := o_m_total o;
     o_n := o_n o; o_a_star := o_a_star o; o_a_planet := o_a_planet o; o_K0 := o_K0 o;
     o_Omega := o_Omega o; o_ecc := o_ecc o; o_M0 := o_M0 o; o_dcosidb := o_dcosidb o;
     o_b := o_b o; o_cos_incl := o_cos_incl o; o_incl := o_incl o; o_sin_incl := o_sin_incl o;
     o_t0 := o_t0 o + d; o_tper := o_tper o + d; o_tref := o_tref o; o_jac := o_jac o; o_duration := o_duration o |}.
Lemma clock_init k (x : kargs R) d : kep_init k (later x d) = rmap (set_clock d) (kep_init k x).
Proof.
  unfold kep_init. assert (L : exists t0 tp, later x d = set_times x t0 tp) by (unfold later; destruct (ka_t0 x), (ka_tper x); do 2 eexists; reflexivity).
  assert (KT : forall p M0 n, kep_times (later x d) p M0 n = rmap (fun q => (fst q + d, snd q + d)) (kep_times x p M0 n)).
  { intros p M0 n. unfold kep_times, later. destruct (ka_t0 x) as [t0|], (ka_tper x) as [tp|]; cbn [set_times ka_t0 ka_tper option_map rmap fst snd]; try reflexivity; f_equal; apply f_equal2; cbn; ring. }
  destruct L as (t0' & tp' & L). rewrite L in *.
  change (kep_units (set_times x t0' tp')) with (kep_units x). change (kep_duration (set_times x t0' tp')) with (kep_duration x).
  change (kep_omega (set_times x t0' tp')) with (kep_omega x). cbn [set_times ka_period ka_m_star ka_Omega].
  destruct (kep_units x) as [[mp rho]|]; cbn [rbind rmap]; [|reflexivity].
  destruct (kep_duration x) as [[[[a rs] dur] da]|]; cbn [rbind rmap]; [|reflexivity].
  destruct (consistent_inputs k a (ka_period x) rho rs (ka_m_star x) mp) as [[[[[[a' p] rho'] rs'] ms] mp']|]; cbn [rbind rmap]; [|reflexivity].
  destruct (kep_omega x) as [ed|]; cbn [rbind rmap]; [|reflexivity].
  match goal with |- context [kep_incl k (set_times x t0' tp') ?a ?b ?c ?d ?e ?f ?g ?h] => change (kep_incl k (set_times x t0' tp') a b c d e f g h) with (kep_incl k x a b c d e f g h);
    destruct (kep_incl k x a b c d e f g h) as [[[[bb ci] ii] du]|] end; cbn [rbind rmap]; [|reflexivity].
  rewrite KT.
  match goal with |- context [kep_times x ?a ?b ?c] => destruct (kep_times x a b c) as [[t0 tp]|] end; cbn [rbind rmap fst snd]; [|reflexivity].
  unfold set_clock. cbn [o_a o_period o_rho_star o_r_star o_m_star o_m_planet o_m_total o_n o_a_star o_a_planet o_K0 o_Omega o_ecc o_M0 o_dcosidb o_b o_cos_incl o_incl o_sin_incl o_t0 o_tper o_tref o_jac o_duration].
  f_equal. f_equal. cbn. ring.
Qed.
Lemma later_errors : forall k (x : kargs R) d, (forall o, kep_init k x = Ok o -> exists o', kep_init k (later x d) = Ok o') /\ (forall e, kep_init k x = Err e -> kep_init k (later x d) = Err e).
Proof. intros k x d. split; intros o H; rewrite clock_init, H; [eexists|]; reflexivity. Qed.

Section R.
Variables (k : consts) (o : orbit R) (d : R).
Notation o' := (set_clock d o).
Notation W := (kep_warp o).
Notation W' := (kep_warp o').
Lemma clock_warp pad t : W' pad (t + d) = W pad t.
Proof. unfold kep_warp. destruct pad; cbn; ring. Qed.
Lemma clock_ta pad t : true_anomaly o' W' pad (t + d) = true_anomaly o W pad t.
Proof. unfold true_anomaly. rewrite clock_warp. reflexivity. Qed.
Lemma clock_nodelay a t par pad : position_nodelay k o' W' a (t + d) par pad = position_nodelay k o W a t par pad.
Proof. unfold position_nodelay. rewrite clock_ta. reflexivity. Qed.
Lemma clock_position a t par ld pad : get_position k o' W' a (t + d) par ld pad = get_position k o W a t par ld pad.
Proof.
  unfold get_position. destruct ld; [|apply clock_nodelay]. unfold retarded_position, retarded_state. rewrite clock_ta.
  change (o_ecc o') with (o_ecc o). change (o_period o') with (o_period o). change (o_sin_incl o') with (o_sin_incl o).
  change (rotate_vector o') with (rotate_vector o). destruct (true_anomaly o W pad t) as [s c]. destruct (match o_ecc o with None => _ | Some _ => _ end) as [rr vv].
  destruct (rotate_vector o _ _) as [[x y] z].
  set (D := light_delay_of _ _ _ _ _). rewrite <- clock_nodelay. f_equal. destruct pad; cbn; ring.
Qed.
Lemma clock_velocity m t : get_velocity o' W' m (t + d) = get_velocity o W m t.
Proof. unfold get_velocity. rewrite clock_ta. reflexivity. Qed.
Lemma clock_acceleration a m t : get_acceleration o' W' a m (t + d) = get_acceleration o W a m t.
Proof. unfold get_acceleration. rewrite clock_ta. reflexivity. Qed.
Lemma clock_rv t K u : get_radial_velocity k o' W' (t + d) K u = get_radial_velocity k o W t K u.
Proof. unfold get_radial_velocity, get_star_velocity. rewrite clock_ta, clock_velocity. reflexivity. Qed.
End R.

Lemma later_motion : forall k (x : kargs R) o o' d, kep_init k x = Ok o -> kep_init k (later x d) = Ok o' ->
  o_t0 o' = o_t0 o + d /\ o_tper o' = o_tper o + d /\
  forall t, (forall b par ld, pos k o' b (t + d) par ld = pos k o b t par ld) /\
    (forall b, vel o' b (t + d) = vel o b t) /\ (forall b, acc o' b (t + d) = acc o b t) /\
    (forall par ld, get_relative_angles k o' (kep_warp o') (t + d) par ld = get_relative_angles k o (kep_warp o) t par ld) /\
    (forall K u, get_radial_velocity k o' (kep_warp o') (t + d) K u = get_radial_velocity k o (kep_warp o) t K u).
Proof.
  intros k x o o' d H H'. rewrite clock_init, H in H'. cbn [rmap] in H'. apply Ok_inj in H'. subst o'. split; [reflexivity|]. split; [reflexivity|]. intro t.
  split; [|split; [|split; [|split]]].
  - intros b par ld. unfold pos, get_planet_position, get_star_position, get_relative_position. destruct b; f_equal; apply clock_position.
  - intro b. unfold vel, get_planet_velocity, get_star_velocity, get_relative_velocity. destruct b; f_equal; apply clock_velocity.
  - intro b. unfold acc, get_planet_acceleration, get_star_acceleration, get_relative_acceleration. destruct b; f_equal; apply clock_acceleration.
  - intros par ld. unfold get_relative_angles. rewrite clock_position. reflexivity.
  - intros K u. apply clock_rv.
Qed.

(** ** systems *)
Lemma clock_dur (x : kargs R) d : no_ecc_duration x -> no_ecc_duration (later x d).
Proof. unfold later. destruct (ka_t0 x), (ka_tper x); exact (fun H => H). Qed.
Lemma clock_phys d o : physical o -> physical (set_clock d o).
Proof. intros []. constructor; assumption. Qed.
Lemma later_system k n x xs os d x' : consts_ok k -> system k n x xs os -> batch n x' (fun j => later (xs j) d) ->
  system k n x' (fun j => later (xs j) d) (fun j => set_clock d (os j)) /\ exists o', kep_init k x' = Ok o'.
Proof.
  intros kok [Hn Ha Hat Hi Hph Hd] [B1 B2].
  assert (S' : system k n x' (fun j => later (xs j) d) (fun j => set_clock d (os j))).
  { constructor; try assumption.
    - intros j Hj. rewrite clock_init, (Hi j Hj). reflexivity.
    - intros j Hj. apply clock_phys, Hph, Hj.
    - intros j Hj. apply clock_dur, Hd, Hj. }
  split; [exact S'|]. destruct (system_orbit k n x' _ _ kok S') as (o' & H & _). exists o'. exact H.
Qed.
Lemma clock_since o d t : since_transit (fin_orbit (set_clock d o)) (kep_warp (fin_orbit (set_clock d o))) (Fin (t + d)) = since_transit (fin_orbit o) (kep_warp (fin_orbit o)) (Fin t).
Proof. unfold since_transit. rewrite !kep_warp_fin, clock_warp. reflexivity. Qed.
Lemma clock_mask o d cp t r e : transit_mask (fin_orbit o) (kep_warp (fin_orbit o)) cp (Fin t) (Fin r) e
  = transit_mask (fin_orbit (set_clock d o)) (kep_warp (fin_orbit (set_clock d o))) cp (Fin (t + d)) (Fin r) e.
Proof.
  unfold transit_mask. rewrite clock_since. change (transit_window (fin_orbit (set_clock d o))) with (transit_window (fin_orbit o)). reflexivity.
Qed.
Lemma clock_slow k d o : slow k o -> slow k (set_clock d o).
Proof. exact (fun H => H). Qed.
Lemma clock_flip k d o r : flip k (set_clock d o) r = rmap (set_clock d) (flip k o r).
Proof.
  assert (E : flip_args (set_clock d o) r = later (flip_args o r) d).
  { unfold flip_args, later. change (o_ecc (set_clock d o)) with (o_ecc o). destruct (o_ecc o); cbn [ka_t0 ka_tper option_map set_clock o_tper o_period o_incl o_Omega o_m_star o_m_planet].
    - reflexivity.
    - set (h := (_ * o_period o)%num). assert (E : ((o_tper o + d)%R + h)%num = (o_tper o + h)%num + d) by (cbn; ring). rewrite E. reflexivity. }
  unfold flip. rewrite E. apply clock_init.
Qed.
Section S.
Variables (k : consts) (n N : nat) (x x' : kargs tens) (xs : nat -> kargs R) (os : nat -> orbit R) (o o' : orbit tens) (d : R).
Hypothesis kok : consts_ok k.
Hypothesis sys : system k n x xs os.
Hypothesis Ho : kep_init k x = Ok o.
Hypothesis B : batch n x' (fun j => later (xs j) d).
Hypothesis Ho' : kep_init k x' = Ok o'.
Variables (t t' : tens) (ts : nat -> R).
Hypothesis Ht : is_vector N t.
Hypothesis Hts : forall m, (m < N)%nat -> aget t (at_time m) = Fin (ts m).
Hypothesis Ht' : is_vector N t'.
Hypothesis Hts' : forall m, (m < N)%nat -> aget t' (at_time m) = Fin (ts m + d).
Lemma clock_same_mask rs cp os1 : same_mask n N os1 (fun j => set_clock d (os1 j)) ts (fun m => ts m + d) rs rs cp.
Proof. intros m j e _ _. apply clock_mask. Qed.
Lemma clock_same_flux rs u1 u2 ld os1 os2 (E : forall j, (j < n)%nat -> os2 j = set_clock d (os1 j)) : same_flux k n N os1 os2 ts (fun m => ts m + d) rs rs u1 u2 ld.
Proof.
  intros m j y _ Hj. rewrite (E j Hj). change (o_r_star (set_clock d (os1 j))) with (o_r_star (os1 j)). f_equal. unfold pos, get_relative_position. f_equal. replace (ts m + d + y) with (ts m + y + d) by ring.
  symmetry. apply clock_position.
Qed.
Lemma clock_in_transit_S cp r rs te es ld : planet_values n r rs -> opt_values n te es ->
  oa_in_transit (kep_api k (lift_cp cp) o') t' r te ld = oa_in_transit (kep_api k (lift_cp cp) o) t r te ld.
Proof.
  intros Hr He. symmetry. apply (pair_in_transit k n N x x' xs _ os _ o o' kok sys (proj1 (later_system k n x xs os d x' kok sys B)) Ho Ho' t t' ts _ Ht Hts Ht' Hts' rs rs cp r r te es ld Hr Hr He). apply clock_same_mask.
Qed.
Lemma clock_light_S u1 u2 cp r rs texp es osam order use ld :
  disk_flux u1 u2 <> 0 -> elements n r rs -> opt_exposures N texp es ->
  (ld = true -> forall j, (j < n)%nat -> slow k (os j)) -> (use = Some false \/ ld = true \/ (exists e, texp = one_texp e)) ->
  same_light n N
    (get_light_curve (ld_init (Fin u1) (Fin u2)) (Some (kep_api k (lift_cp cp) o)) (Some r) (Some t) texp osam order use ld)
    (get_light_curve (ld_init (Fin u1) (Fin u2)) (Some (kep_api k (lift_cp cp) o')) (Some r) (Some t') texp osam order use ld).
Proof.
  intros Hd Hr He Hl Hu. apply (pair_light k n N x x' xs _ os _ o o' kok sys (proj1 (later_system k n x xs os d x' kok sys B)) Ho Ho' t t' ts _ Ht Hts Ht' Hts' rs rs u1 u2 cp r r texp es osam order use ld Hd Hr Hr He).
  - intros El j Hj. split; [|apply clock_slow]; apply Hl; assumption.
  - apply clock_same_flux. reflexivity.
  - destruct Hu as [Hu|[Hu|Hu]]; [left|right; left|right; right; split; [|apply clock_same_mask]]; exact Hu.
Qed.
End S.

Lemma later_in_transit : forall k n x xs os o d x', consts_ok k -> system k n x xs os -> kep_init k x = Ok o -> batch n x' (fun j => later (xs j) d) ->
  exists o', kep_init k x' = Ok o' /\
  forall cp N t t' ts r rs te es ld,
  is_vector N t -> (forall m, (m < N)%nat -> aget t (at_time m) = Fin (ts m)) ->
  is_vector N t' -> (forall m, (m < N)%nat -> aget t' (at_time m) = Fin (ts m + d)) ->
  planet_values n r rs -> opt_values n te es ->
  oa_in_transit (kep_api k (lift_cp cp) o') t' r te ld = oa_in_transit (kep_api k (lift_cp cp) o) t r te ld.
Proof.
  intros k n x xs os o d x' kok sys Ho B. destruct (later_system k n x xs os d x' kok sys B) as [_ [o' Ho']]. exists o'. split; [exact Ho'|].
  intros cp N t t' ts r rs te es ld Ht Hts Ht' Hts'. exact (clock_in_transit_S k n N x x' xs os o o' d kok sys Ho B Ho' t t' ts Ht Hts Ht' Hts' cp r rs te es ld).
Qed.
Lemma later_light : forall k n x xs os o d x', consts_ok k -> system k n x xs os -> kep_init k x = Ok o -> batch n x' (fun j => later (xs j) d) ->
  exists o', kep_init k x' = Ok o' /\
  forall u1 u2 cp N t t' ts r rs texp es osam order use ld,
  is_vector N t -> (forall m, (m < N)%nat -> aget t (at_time m) = Fin (ts m)) ->
  is_vector N t' -> (forall m, (m < N)%nat -> aget t' (at_time m) = Fin (ts m + d)) ->
  disk_flux u1 u2 <> 0 -> elements n r rs -> opt_exposures N texp es ->
  (ld = true -> forall j, (j < n)%nat -> slow k (os j)) -> (use = Some false \/ ld = true \/ (exists e, texp = one_texp e)) ->
  same_light n N
    (get_light_curve (ld_init (Fin u1) (Fin u2)) (Some (kep_api k (lift_cp cp) o)) (Some r) (Some t) texp osam order use ld)
    (get_light_curve (ld_init (Fin u1) (Fin u2)) (Some (kep_api k (lift_cp cp) o')) (Some r) (Some t') texp osam order use ld).
Proof.
  intros k n x xs os o d x' kok sys Ho B. destruct (later_system k n x xs os d x' kok sys B) as [_ [o' Ho']]. exists o'. split; [exact Ho'|].
  intros u1 u2 cp N t t' ts r rs texp es osam order use ld Ht Hts Ht' Hts'. exact (clock_light_S k n N x x' xs os o o' d kok sys Ho B Ho' t t' ts Ht Hts Ht' Hts' u1 u2 cp r rs texp es osam order use ld).
Qed.
Lemma later_secondary : forall k n x xs os o d x', consts_ok k -> system k n x xs os -> kep_init k x = Ok o -> batch n x' (fun j => later (xs j) d) ->
  exists o', kep_init k x' = Ok o' /\
  forall u1 u2 v1 v2 s ss cp r rs N t t' ts texp es osam order use ld,
  disk_flux u1 u2 <> 0 -> disk_flux v1 v2 <> 0 -> planet_values n r rs -> (forall j, (j < n)%nat -> 0 < rs j) -> one_each n r -> one_each n (o_r_star o) -> one_each n (o_r_star o') ->
  planet_values n s ss -> (forall j, (j < n)%nat -> 0 <= ss j) ->
  is_vector N t -> (forall m, (m < N)%nat -> aget t (at_time m) = Fin (ts m)) ->
  is_vector N t' -> (forall m, (m < N)%nat -> aget t' (at_time m) = Fin (ts m + d)) -> opt_exposures N texp es ->
  (ld = true -> forall j, (j < n)%nat -> slow k (os j)) -> (use = Some false \/ ld = true \/ (exists e, texp = one_texp e)) ->
  let S := {| se_primary := ld_init (Fin u1) (Fin u2); se_secondary := ld_init (Fin v1) (Fin v2); se_ratio := s |} in
  same_light n N (secondary_light_curve k (lift_cp cp) S o r (Some t) texp osam order use ld) (secondary_light_curve k (lift_cp cp) S o' r (Some t') texp osam order use ld).
Proof.
  intros k n x xs os o d x' kok sys Ho B. destruct (later_system k n x xs os d x' kok sys B) as [sys' [o' Ho']]. exists o'. split; [exact Ho'|].
  intros u1 u2 v1 v2 s ss cp r rs N t t' ts texp es osam order use ld D1 D2 Hr Hr0 O1 O2 O2' Hs Hs0 Ht Hts Ht' Hts' He Hl Hu.
  apply (pair_secondary k n N x x' xs _ os _ o o' kok sys sys' Ho Ho' t t' ts (fun m => ts m + d) Ht Hts Ht' Hts' r r rs rs Hr Hr Hr0 Hr0 O1 O1 O2 O2' (fun j _ => eq_refl) u1 u2 v1 v2 s ss cp texp es osam order use ld D1 D2 Hs Hs0 He).
  - intros El j Hj. split; [|apply clock_slow]; apply Hl; assumption.
  - apply clock_same_flux. reflexivity.
  - destruct Hu as [Hu|[Hu|Hu]]; [left|right; left|right; right; split; [|apply clock_same_mask]]; exact Hu.
  - intros os2 os2' F. assert (E : forall j, (j < n)%nat -> os2' j = set_clock d (os2 j)).
    { intros j Hj. destruct (F j Hj) as [F1 F2]. rewrite clock_flip, F1 in F2. apply Ok_inj in F2. symmetry. exact F2. }
    split; [apply clock_same_flux; exact E|].
    destruct Hu as [Hu|[Hu|Hu]]; [left; exact Hu|right; left; exact Hu|right; right; split; [exact Hu|]]. intros m j e Hm Hj. rewrite (E j Hj). apply clock_mask.
Qed.
