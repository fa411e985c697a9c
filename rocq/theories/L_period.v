(** * Light curves repeat *)
From Coq Require Import Reals List Bool Arith ZArith Lra Lia Psatz.
From Verif Require Import Num CoreOps Inst CoreFlux M_units M_kepler M_fin M_tensor M_simple M_ttv M_limbdark M_secondary
  Spec_orbit Spec_params Spec_array Spec_simple Spec_light Spec_secondary Spec_delay Spec_sym Spec_period
  L_real L_kepop L_orbit L_params3 L_fl L_fl2 L_fl3 L_tens L_shape L_shapeS L_transit2 L_transit3 L_transit4 L_transit6 L_array L_motion L_pmotion L_pmotion3 L_pmotion5 L_simple L_simple2
  L_reshape L_light1 L_light2 L_light3 L_light4 L_light7 L_light8 L_second L_second2 L_delay L_delay2 L_sym L_sym2.
Import ListNotations.
Local Notation length := List.length.
Open Scope R_scope.

Lemma period_mask o cp t (z : Z) r e : 0 < o_period o ->
  transit_mask (fin_orbit o) (kep_warp (fin_orbit o)) cp (Fin t) (Fin r) e
  = transit_mask (fin_orbit o) (kep_warp (fin_orbit o)) cp (Fin (t + IZR z * o_period o)) (Fin r) e.
Proof.
  intro P. assert (E : since_transit (fin_orbit o) (kep_warp (fin_orbit o)) (Fin t) = since_transit (fin_orbit o) (kep_warp (fin_orbit o)) (Fin (t + IZR z * o_period o))).
  { unfold since_transit. rewrite !kep_warp_fin. cbn [kep_warp fin_orbit map_orbit o_period].
    assert (F : forall u, nmod (Fin u + nlit 0.5 * Fin (o_period o))%num (Fin (o_period o)) = Fin (Rmodulo (u + 0.5 * o_period o) (o_period o))).
    { intro u. fn. rewrite fmod_fin by lra. reflexivity. }
    rewrite !F. f_equal. f_equal. cbn.
    replace (t + IZR z * o_period o - o_t0 o + 0.5 * o_period o) with (t - o_t0 o + 0.5 * o_period o + IZR z * o_period o) by ring.
    symmetry. apply Rmodulo_add_mult. lra. }
  unfold transit_mask. rewrite E. reflexivity.
Qed.
Lemma flip_period k (x : kargs R) o r o2 : consts_ok k -> kep_init k x = Ok o -> physical o -> 0 < r -> flip k o r = Ok o2 -> o_period o2 = o_period o.
Proof.
  intros kok H ph Hr F. destruct (flip_init k x o r kok H ph Hr) as (o' & F' & _ & _ & E & _). rewrite F in F'. apply Ok_inj in F'. subst o'. exact E.
Qed.

Section K.
Variables (k : consts) (n N : nat) (x : kargs tens) (xs : nat -> kargs R) (os : nat -> orbit R) (o : orbit tens).
Hypothesis kok : consts_ok k.
Hypothesis sys : system k n x xs os.
Hypothesis Ho : kep_init k x = Ok o.
Variables (t t' : tens) (ts ts' : nat -> R).
Hypothesis Ht : is_vector N t.
Hypothesis Hts : forall m, (m < N)%nat -> aget t (at_time m) = Fin (ts m).
Hypothesis Ht' : is_vector N t'.
Hypothesis Hts' : forall m, (m < N)%nat -> aget t' (at_time m) = Fin (ts' m).

Lemma period_same_mask rs cp os1 : (forall j, (j < n)%nat -> 0 < o_period (os1 j)) -> periods_apart n N (fun j => o_period (os1 j)) ts ts' ->
  same_mask n N os1 os1 ts ts' rs rs cp.
Proof. intros P A m j e Hm Hj. destruct (A m j Hm Hj) as [z ->]. apply period_mask, P, Hj. Qed.
Lemma period_pos (y : kargs R) q s (z : Z) ld : kep_init k y = Ok q -> physical q -> pos k q Relative (s + IZR z * o_period q) None ld = pos k q Relative s None ld.
Proof. intros H ph. apply (proj1 (periodic_motion k y q s z None ld None None kok H ph) Relative). Qed.
Lemma period_same_flux rs u1 u2 ld os1 (ys : nat -> kargs R) : (forall j, (j < n)%nat -> kep_init k (ys j) = Ok (os1 j) /\ physical (os1 j)) ->
  periods_apart n N (fun j => o_period (os1 j)) ts ts' -> same_flux k n N os1 os1 ts ts' rs rs u1 u2 ld.
Proof.
  intros P A m j y Hm Hj. destruct (A m j Hm Hj) as [z ->]. destruct (P j Hj) as [H ph].
  replace (ts m + IZR z * o_period (os1 j) + y) with (ts m + y + IZR z * o_period (os1 j)) by ring.
  rewrite (period_pos _ _ _ _ _ H ph). reflexivity.
Qed.
Hypothesis Hp : periods_apart n N (fun j => o_period (os j)) ts ts'.
Lemma sys_init j : (j < n)%nat -> kep_init k (xs j) = Ok (os j) /\ physical (os j).
Proof. intro Hj. split; [apply (sy_init _ _ _ _ _ sys j Hj)|apply (sy_phys _ _ _ _ _ sys j Hj)]. Qed.
Lemma sys_period j : (j < n)%nat -> 0 < o_period (os j).
Proof. intro Hj. apply (ph_period _ (sy_phys _ _ _ _ _ sys j Hj)). Qed.

Lemma period_in_transit_S cp r rs te es ld : planet_values n r rs -> opt_values n te es ->
  oa_in_transit (kep_api k (lift_cp cp) o) t' r te ld = oa_in_transit (kep_api k (lift_cp cp) o) t r te ld.
Proof.
  intros Hr He. symmetry. apply (pair_in_transit k n N x x xs xs os os o o kok sys sys Ho Ho t t' ts ts' Ht Hts Ht' Hts' rs rs cp r r te es ld Hr Hr He).
  apply period_same_mask; [exact sys_period|exact Hp].
Qed.
Lemma period_light_S u1 u2 cp r rs texp es osam order use ld :
  disk_flux u1 u2 <> 0 -> elements n r rs -> opt_exposures N texp es ->
  (ld = true -> forall j, (j < n)%nat -> slow k (os j)) -> (use = Some false \/ ld = true \/ (exists e, texp = one_texp e)) ->
  same_light n N
    (get_light_curve (ld_init (Fin u1) (Fin u2)) (Some (kep_api k (lift_cp cp) o)) (Some r) (Some t) texp osam order use ld)
    (get_light_curve (ld_init (Fin u1) (Fin u2)) (Some (kep_api k (lift_cp cp) o)) (Some r) (Some t') texp osam order use ld).
Proof.
  intros Hd Hr He Hl Hu. apply (pair_light k n N x x xs xs os os o o kok sys sys Ho Ho t t' ts ts' Ht Hts Ht' Hts' rs rs u1 u2 cp r r texp es osam order use ld Hd Hr Hr He).
  - intros El j Hj. split; apply Hl; assumption.
  - apply (period_same_flux rs u1 u2 ld os xs); [exact sys_init|exact Hp].
  - destruct Hu as [Hu|[Hu|Hu]]; [left|right; left|right; right; split; [|apply period_same_mask; [exact sys_period|exact Hp]]]; exact Hu.
Qed.
Lemma period_secondary_S u1 u2 v1 v2 s ss cp r rs texp es osam order use ld :
  disk_flux u1 u2 <> 0 -> disk_flux v1 v2 <> 0 -> planet_values n r rs -> (forall j, (j < n)%nat -> 0 < rs j) -> one_each n r -> one_each n (o_r_star o) ->
  planet_values n s ss -> (forall j, (j < n)%nat -> 0 <= ss j) -> opt_exposures N texp es ->
  (ld = true -> forall j, (j < n)%nat -> slow k (os j)) -> (use = Some false \/ ld = true \/ (exists e, texp = one_texp e)) ->
  let S := {| se_primary := ld_init (Fin u1) (Fin u2); se_secondary := ld_init (Fin v1) (Fin v2); se_ratio := s |} in
  same_light n N (secondary_light_curve k (lift_cp cp) S o r (Some t) texp osam order use ld) (secondary_light_curve k (lift_cp cp) S o r (Some t') texp osam order use ld).
Proof.
  intros D1 D2 Hr Hr0 O1 O2 Hs Hs0 He Hl Hu.
  apply (pair_secondary k n N x x xs xs os os o o kok sys sys Ho Ho t t' ts ts' Ht Hts Ht' Hts' r r rs rs Hr Hr Hr0 Hr0 O1 O1 O2 O2 (fun j _ => eq_refl) u1 u2 v1 v2 s ss cp texp es osam order use ld D1 D2 Hs Hs0 He).
  - intros El j Hj. split; apply Hl; assumption.
  - apply (period_same_flux rs u1 u2 ld os xs); [exact sys_init|exact Hp].
  - destruct Hu as [Hu|[Hu|Hu]]; [left|right; left|right; right; split; [|apply period_same_mask; [exact sys_period|exact Hp]]]; exact Hu.
  - intros os2 os2' F.
    assert (E2 : forall j, (j < n)%nat -> os2' j = os2 j).
    { intros j Hj. destruct (F j Hj) as [F1 F2]. rewrite F1 in F2. apply Ok_inj in F2. symmetry. exact F2. }
    assert (E : forall j, (j < n)%nat -> o_period (os2 j) = o_period (os j)).
    { intros j Hj. destruct (F j Hj) as [F1 _]. destruct (sys_init j Hj) as [H ph]. apply (flip_period k (xs j) (os j) (rs j)); try assumption. apply Hr0, Hj. }
    assert (I2 : forall j, (j < n)%nat -> kep_init k (flip_args (os j) (rs j)) = Ok (os2 j) /\ physical (os2 j)).
    { intros j Hj. destruct (F j Hj) as [F1 _]. destruct (sys_init j Hj) as [H ph]. split; [exact F1|].
      destruct (flip_init k (xs j) (os j) (rs j) kok H ph (Hr0 j Hj)) as (o' & F' & ph' & _). rewrite F1 in F'. apply Ok_inj in F'. subst o'. exact ph'. }
    assert (A : periods_apart n N (fun j => o_period (os2 j)) ts ts').
    { intros m j Hm Hj. rewrite (E j Hj). apply Hp; assumption. }
    split.
    + intros m j y Hm Hj. rewrite (E2 j Hj). apply (period_same_flux (fun j => o_r_star (os j)) v1 v2 ld os2 _ I2 A m j y Hm Hj).
    + destruct Hu as [Hu|[Hu|Hu]]; [left; exact Hu|right; left; exact Hu|right; right; split; [exact Hu|]].
      intros m j e Hm Hj. rewrite (E2 j Hj). apply (period_same_mask (fun j => o_r_star (os j)) cp os2); [|exact A|exact Hm|exact Hj].
      intros i Hi. apply (ph_period _ (proj2 (I2 i Hi))).
Qed.
End K.

Lemma period_in_transit : forall k n N x xs os o t t' ts ts' cp r rs te es ld, consts_ok k -> system k n x xs os -> kep_init k x = Ok o ->
  is_vector N t -> (forall m, (m < N)%nat -> aget t (at_time m) = Fin (ts m)) ->
  is_vector N t' -> (forall m, (m < N)%nat -> aget t' (at_time m) = Fin (ts' m)) ->
  periods_apart n N (fun j => o_period (os j)) ts ts' ->
  planet_values n r rs -> opt_values n te es ->
  oa_in_transit (kep_api k (lift_cp cp) o) t' r te ld = oa_in_transit (kep_api k (lift_cp cp) o) t r te ld.
Proof.
  intros k n N x xs os o t t' ts ts' cp r rs te es ld kok sys Ho Ht Hts Ht' Hts' Hp. apply (period_in_transit_S k n N x xs os o kok sys Ho t t' ts ts' Ht Hts Ht' Hts' Hp).
Qed.
Lemma period_light : forall k n N x xs os o t t' ts ts' u1 u2 cp r rs texp es osam order use ld, consts_ok k -> system k n x xs os -> kep_init k x = Ok o ->
  is_vector N t -> (forall m, (m < N)%nat -> aget t (at_time m) = Fin (ts m)) ->
  is_vector N t' -> (forall m, (m < N)%nat -> aget t' (at_time m) = Fin (ts' m)) ->
  periods_apart n N (fun j => o_period (os j)) ts ts' ->
  disk_flux u1 u2 <> 0 -> elements n r rs -> opt_exposures N texp es ->
  (ld = true -> forall j, (j < n)%nat -> slow k (os j)) -> (use = Some false \/ ld = true \/ (exists e, texp = one_texp e)) ->
  same_light n N
    (get_light_curve (ld_init (Fin u1) (Fin u2)) (Some (kep_api k (lift_cp cp) o)) (Some r) (Some t) texp osam order use ld)
    (get_light_curve (ld_init (Fin u1) (Fin u2)) (Some (kep_api k (lift_cp cp) o)) (Some r) (Some t') texp osam order use ld).
Proof.
  intros k n N x xs os o t t' ts ts' u1 u2 cp r rs texp es osam order use ld kok sys Ho Ht Hts Ht' Hts' Hp. apply (period_light_S k n N x xs os o kok sys Ho t t' ts ts' Ht Hts Ht' Hts' Hp).
Qed.
Lemma period_secondary : forall k n N x xs os o t t' ts ts' u1 u2 v1 v2 s ss cp r rs texp es osam order use ld, consts_ok k -> system k n x xs os -> kep_init k x = Ok o ->
  is_vector N t -> (forall m, (m < N)%nat -> aget t (at_time m) = Fin (ts m)) ->
  is_vector N t' -> (forall m, (m < N)%nat -> aget t' (at_time m) = Fin (ts' m)) ->
  periods_apart n N (fun j => o_period (os j)) ts ts' ->
  disk_flux u1 u2 <> 0 -> disk_flux v1 v2 <> 0 -> planet_values n r rs -> (forall j, (j < n)%nat -> 0 < rs j) -> one_each n r -> one_each n (o_r_star o) ->
  planet_values n s ss -> (forall j, (j < n)%nat -> 0 <= ss j) -> opt_exposures N texp es ->
  (ld = true -> forall j, (j < n)%nat -> slow k (os j)) -> (use = Some false \/ ld = true \/ (exists e, texp = one_texp e)) ->
  let S := {| se_primary := ld_init (Fin u1) (Fin u2); se_secondary := ld_init (Fin v1) (Fin v2); se_ratio := s |} in
  same_light n N (secondary_light_curve k (lift_cp cp) S o r (Some t) texp osam order use ld) (secondary_light_curve k (lift_cp cp) S o r (Some t') texp osam order use ld).
Proof.
  intros k n N x xs os o t t' ts ts' u1 u2 v1 v2 s ss cp r rs texp es osam order use ld kok sys Ho Ht Hts Ht' Hts' Hp. apply (period_secondary_S k n N x xs os o kok sys Ho t t' ts ts' Ht Hts Ht' Hts' Hp).
Qed.

(** rows of several planets with periods of their own *)
Lemma period_row : forall k n N x xs os o t t' ts ts' u1 u2 cp r rs texp es osam order ld, consts_ok k -> system k n x xs os -> kep_init k x = Ok o ->
  is_vector N t -> (forall m, (m < N)%nat -> aget t (at_time m) = Fin (ts m)) ->
  is_vector N t' -> (forall m, (m < N)%nat -> aget t' (at_time m) = Fin (ts' m)) ->
  disk_flux u1 u2 <> 0 -> elements n r rs -> opt_exposures N texp es -> (exists nw, stencil osam order = Ok nw) ->
  (ld = true -> forall j, (j < n)%nat -> slow k (os j)) ->
  exists X X', get_light_curve (ld_init (Fin u1) (Fin u2)) (Some (kep_api k (lift_cp cp) o)) (Some r) (Some t) texp osam order (Some false) ld = Ok X /\
    get_light_curve (ld_init (Fin u1) (Fin u2)) (Some (kep_api k (lift_cp cp) o)) (Some r) (Some t') texp osam order (Some false) ld = Ok X' /\
    forall m j (z : Z), (m < N)%nat -> (j < n)%nat -> ts' m = ts m + IZR z * o_period (os j) -> aget X' (at_tp m j) = aget X (at_tp m j).
Proof.
  intros k n N x xs os o t t' ts ts' u1 u2 cp r rs texp es osam order ld kok sys Ho Ht Hts Ht' Hts' Hd Hr He [[nodes weights] Hst] Hl.
  destruct (kepler_answers k n x xs os o (lift_cp cp) kok sys Ho) as [HA Hs].
  assert (Q : answers (kep_api k (lift_cp cp) o) ld n (fun j t => pos k (os j) Relative t None ld)).
  { destruct ld; [|assumption]. apply (delay_answers k n x xs os o _ kok sys Ho). intros j Hj. apply (Hl eq_refl j Hj). }
  assert (Hz : forall j, (j < n)%nat -> o_r_star (os j) <> 0) by (intros j Hj; assert (P := ph_r_star _ (sy_phys _ _ _ _ _ sys j Hj)); lra).
  assert (Ex : match texp with None => True | Some e => exposures N e es /\ stencil osam order = Ok (nodes, weights) end).
  { destruct texp as [e|]; [|exact I]. split; [exact He|exact Hst]. }
  destruct (plain_ok u1 u2 _ ld n _ _ Hd Q Hs Hz r rs Hr N t ts Ht Hts nodes weights es texp osam order Ex) as (X & EX & SX & VX).
  destruct (plain_ok u1 u2 _ ld n _ _ Hd Q Hs Hz r rs Hr N t' ts' Ht' Hts' nodes weights es texp osam order Ex) as (X' & EX' & SX' & VX').
  exists X, X'. split; [exact EX|]. split; [exact EX'|]. intros m j z Hm Hj Ez. rewrite (VX m j Hm Hj), (VX' m j Hm Hj). f_equal. apply mean_same.
  intro y. rewrite Ez. replace (ts m + IZR z * o_period (os j) + y) with (ts m + y + IZR z * o_period (os j)) by ring.
  rewrite (period_pos k kok (xs j) (os j) _ _ _ (sy_init _ _ _ _ _ sys j Hj) (sy_phys _ _ _ _ _ sys j Hj)). reflexivity.
Qed.

(** ** SimpleTransitOrbit *)
Lemma simple_period_mask x t (z : Z) r e : simple_ok x ->
  simple_mask (simple_init (map_sargs Fin x)) (Fin (t + IZR z * sa_period x)) r e = simple_mask (simple_init (map_sargs Fin x)) (Fin t) r e.
Proof.
  intro ok. unfold simple_mask. rewrite !(simple_dt_fin x ok).
  assert (E : sdt x (t + IZR z * sa_period x) = sdt x t).
  { unfold sdt. replace (t + IZR z * sa_period x - (dflt 0 (sa_t0 x) - 0.5 * sa_period x)) with (t - (dflt 0 (sa_t0 x) - 0.5 * sa_period x) + IZR z * sa_period x) by ring.
    rewrite Rmodulo_add_mult; [reflexivity|]. assert (P := so_period _ ok). lra. }
  rewrite E. reflexivity.
Qed.
Lemma simple_period_in_transit : forall n N x xs t t' ts ts' r te ld, simple_system n x xs -> (forall j, (j < n)%nat -> simple_ok (xs j)) ->
  is_vector N t -> (forall m, (m < N)%nat -> aget t (at_time m) = Fin (ts m)) ->
  is_vector N t' -> (forall m, (m < N)%nat -> aget t' (at_time m) = Fin (ts' m)) ->
  periods_apart n N (fun j => sa_period (xs j)) ts ts' -> opt_per_planet n r -> opt_per_planet n te ->
  simple_in_transit (simple_init x) t' r te ld = simple_in_transit (simple_init x) t r te ld.
Proof.
  intros n N x xs t t' ts ts' r te ld sys ok Ht Hts Ht' Hts' Hp Hr He. destruct ld; [reflexivity|].
  rewrite (simple_list n N x xs t sys Ht r te Hr He), (simple_list n N x xs t' sys Ht' r te Hr He). f_equal.
  apply filter_ext_in. intros m Hm. apply in_seq in Hm. apply existsb_ext_in'. intros j Hj. apply in_seq in Hj.
  assert (L1 : (m < N)%nat) by lia. assert (L2 : (j < n)%nat) by lia.
  rewrite (simple_mask_at n x xs t' sys), (simple_mask_at n x xs t sys), (sargs_at_any n x xs sys (cons_ix j (cons_ix m ix0)) L2), (time_at' N t ts Ht Hts j m L1), (time_at' N t' ts' Ht' Hts' j m L1).
  cbn [cons_ix]. destruct (Hp m j L1 L2) as [z ->]. apply simple_period_mask, ok, L2.
Qed.
Lemma simple_period_light : forall n N x xs t t' ts ts' u1 u2 r rs texp es osam order use, simple_system n x xs -> (forall j, (j < n)%nat -> simple_ok (xs j)) ->
  is_vector N t -> (forall m, (m < N)%nat -> aget t (at_time m) = Fin (ts m)) ->
  is_vector N t' -> (forall m, (m < N)%nat -> aget t' (at_time m) = Fin (ts' m)) ->
  periods_apart n N (fun j => sa_period (xs j)) ts ts' ->
  disk_flux u1 u2 <> 0 -> elements n r rs -> opt_exposures N texp es -> (use = Some false \/ (exists e, texp = one_texp e)) ->
  same_light n N
    (get_light_curve (ld_init (Fin u1) (Fin u2)) (Some (simple_api (simple_init x))) (Some r) (Some t) texp osam order use false)
    (get_light_curve (ld_init (Fin u1) (Fin u2)) (Some (simple_api (simple_init x))) (Some r) (Some t') texp osam order use false).
Proof.
  intros n N x xs t t' ts ts' u1 u2 r rs texp es osam order use sys ok Ht Hts Ht' Hts' Hp Hd Hr He Hu.
  destruct (simple_answers n x xs sys ok) as [HA Hs].
  assert (Hz : forall j, (j < n)%nat -> dflt 1 (sa_r_star (xs j)) <> 0) by (intros j Hj; assert (P := so_r_star _ (ok j Hj)); lra).
  apply (light_same u1 u2 _ _ false n _ _ _ _ r r rs rs N t t' ts ts' texp es osam order use Hd HA HA Hs Hs Hz Hz Hr Hr Ht Hts Ht' Hts' He).
  - destruct Hu as [Hu|[e ->]]; [left; exact Hu|right]. cbn [oa_in_transit simple_api]. symmetry.
    apply (simple_period_in_transit n N x xs t t' ts ts' (Some (flat_radii r)) (one_texp e) false sys ok Ht Hts Ht' Hts' Hp).
    + apply (opt_val_pp n (Some (flat_radii r)) rs). apply (radii_flat n r rs Hr).
    + apply (opt_val_pp n (one_texp e) (fun _ => pad_of e)), one_opt.
  - intros nodes weights _ m j Hm Hj. apply mean_same. intro y. destruct (Hp m j Hm Hj) as [z ->].
    replace (ts m + IZR z * sa_period (xs j) + y) with (ts m + y + IZR z * sa_period (xs j)) by ring.
    destruct (simple_geometry (xs j) (ok j Hj)) as (_ & _ & _ & _ & _ & G). rewrite G. reflexivity.
Qed.
