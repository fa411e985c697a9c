(** * Proofs: secondary eclipses *)
From Coq Require Import Reals List Bool Arith ZArith Lra Lia.
From Coquelicot Require Import Coquelicot.
From Verif Require Import Num CoreOps Inst CoreFlux M_units M_kepler M_fin M_tensor M_simple M_ttv M_limbdark M_secondary
  Spec_orbit Spec_params Spec_array Spec_light Spec_secondary Spec_depth L_real L_orbit L_kepop L_motion L_params L_params2 L_params3 L_params4 L_pmotion L_pmotion3 L_pmotion5 L_light1 L_light7 L_depth3 L_second L_second2 Ex_orbit Ex_system.
Import ListNotations.
Local Notation length := List.length.
Open Scope R_scope.

(** ** one instant *)
Lemma apart_opposite P : apart (opposite P) = apart P.
Proof. unfold apart, opposite, vx, vy. cbn. f_equal. ring. Qed.
Lemma total_flux v1 v2 P r rst : disk_flux v1 v2 <> 0 -> 0 < r -> vz P < 0 -> apart P + r <= rst -> flux_at v1 v2 (opposite P) rst r = -1.
Proof.
  intros D Hr Hz H. unfold flux_at. fold (apart (opposite P)). rewrite apart_opposite. assert (Ap : 0 <= apart P) by apply sqrt_pos.
  apply rel_flux_covered; [exact D| |].
  - apply Rdiv_lt_0_compat; [|exact Hr]. unfold opposite, vz in *. cbn. lra.
  - rewrite !Rabs_pos_eq by (apply Rdiv_le_0_compat; lra). apply (Rmult_le_reg_r r); [exact Hr|]. replace ((1 + apart P / r) * r) with (apart P + r) by (field; lra). replace (rst / r * r) with rst by (field; lra). exact H.
Qed.
Lemma behind_flux u1 u2 P r rst : disk_flux u1 u2 <> 0 -> 0 < r -> 0 < rst -> vz P <= 0 -> flux_at u1 u2 P r rst = 0.
Proof. intros D Hr Hs Hz. apply not_overlap; try assumption; [lra|]. intros [K _]. lra. Qed.
Lemma front_flux v1 v2 P r rst : disk_flux v1 v2 <> 0 -> 0 < r -> 0 < rst -> 0 <= vz P -> flux_at v1 v2 (opposite P) rst r = 0.
Proof. intros D Hr Hs Hz. apply not_overlap; try assumption; [lra|]. intros [K _]. unfold opposite, vz in *. cbn in K. lra. Qed.
Lemma clear_flux u1 u2 P r rst : disk_flux u1 u2 <> 0 -> 0 < r -> 0 < rst -> rst + r <= apart P -> flux_at u1 u2 P r rst = 0.
Proof. intros D Hr Hs H. apply not_overlap; try assumption; [lra|]. intros [_ K]. fold (apart P) in K. lra. Qed.
Lemma flux_low u1 u2 P r rst : disk_flux u1 u2 <> 0 -> bright u1 u2 -> -1 <= flux_at u1 u2 P r rst <= 0.
Proof. intros D B. apply rel_flux_range; assumption. Qed.
Lemma mean_between nodes weights f t e lo hi : length nodes = length weights -> List.Forall (fun v => 0 < v) weights ->
  (forall x, In x nodes -> lo <= f (t + e * x) <= hi) -> lo * fold_right Rplus 0 weights <= node_mean nodes weights f t e <= hi * fold_right Rplus 0 weights.
Proof.
  unfold node_mean. revert weights. induction nodes as [|x nodes IH]; intros [|w weights] L HW H; cbn in L; try discriminate; [cbn; lra|]. cbn [combine map fold_right fst snd].
  inversion HW as [|? ? Hw HW']; subst. destruct (H x (or_introl eq_refl)) as [A B]. destruct (IH weights ltac:(lia) HW' (fun y Hy => H y (or_intror Hy))) as [C D].
  assert (lo * w <= w * f (t + e * x)) by (rewrite (Rmult_comm w); apply Rmult_le_compat_r; lra).
  assert (w * f (t + e * x) <= hi * w) by (rewrite (Rmult_comm w); apply Rmult_le_compat_r; lra). lra.
Qed.
(** the mean of a curve over an exposure *)
Definition mean_at (osam order : Z) (texp : option tens) (es : nat -> R) (m : nat) (F : R -> R) (t v : R) : Prop :=
  match texp with
  | None => v = F t
  | Some _ => exists nodes weights, stencil osam order = Ok (nodes, weights) /\ v = node_mean nodes weights F t (es m)
  end.
Lemma mean_at_const N osam order texp es m F t v c : opt_exposures N texp es -> 0 <= es m -> (forall s, Rabs (s - t) <= es m / 2 -> F s = c) -> mean_at osam order texp es m F t v -> v = c.
Proof.
  intros He H0 H M. unfold mean_at in M. destruct texp as [e|].
  - destruct M as (nodes & weights & St & ->). destruct (quadrature _ _ _ _ St) as (L & _ & _ & _ & W1 & Nd & _). rewrite (mean_const _ _ _ _ _ c L); [rewrite W1; ring|].
    intros x Hx. rewrite Forall_forall in Nd. assert (B := Nd x Hx). apply H. replace (t + es m * x - t) with (es m * x) by ring. apply Rabs_le; split; nra.
  - subst v. apply H. rewrite Rminus_diag_eq, Rabs_R0 by reflexivity. lra.
Qed.
Lemma mean_at_between N osam order texp es m F t v lo hi : opt_exposures N texp es -> 0 <= es m -> (forall s, Rabs (s - t) <= es m / 2 -> lo <= F s <= hi) -> mean_at osam order texp es m F t v -> lo <= v <= hi.
Proof.
  intros He H0 H M. unfold mean_at in M. destruct texp as [e|].
  - destruct M as (nodes & weights & St & ->). destruct (quadrature _ _ _ _ St) as (L & _ & _ & Wp & W1 & Nd & _). destruct (mean_between nodes weights F t (es m) lo hi L Wp) as [A B]; [|rewrite W1 in A, B; lra].
    intros x Hx. rewrite Forall_forall in Nd. assert (B := Nd x Hx). apply H. replace (t + es m * x - t) with (es m * x) by ring. apply Rabs_le; split; nra.
  - subst v. apply H. rewrite Rminus_diag_eq, Rabs_R0 by reflexivity. lra.
Qed.
(** ** the light curve *)
Lemma eclipse_curve : forall k n x xs os o, consts_ok k -> system k n x xs os -> kep_init k x = Ok o ->
  forall r rs, planet_values n r rs -> (forall j, (j < n)%nat -> 0 < rs j) ->
  forall cp u1 u2 v1 v2 s ss N t ts texp es osam order,
  disk_flux u1 u2 <> 0 -> disk_flux v1 v2 <> 0 -> one_each n r -> one_each n (o_r_star o) ->
  planet_values n s ss -> (forall j, (j < n)%nat -> 0 <= ss j) ->
  is_vector N t -> (forall m, (m < N)%nat -> aget t (at_time m) = Fin (ts m)) ->
  opt_exposures N texp es -> (texp <> None -> exists nodes weights, stencil osam order = Ok (nodes, weights)) ->
  exists X f, secondary_light_curve k cp {| se_primary := ld_init (Fin u1) (Fin u2); se_secondary := ld_init (Fin v1) (Fin v2); se_ratio := s |}
      o r (Some t) texp osam order (Some false) false = Ok X /\ light_table n N X f /\
    forall m j, exists a b, mean_at osam order texp es m (fun u => flux_at u1 u2 (pos k (os j) Relative u None false) (rs j) (o_r_star (os j))) (ts m) a /\
      mean_at osam order texp es m (fun u => flux_at v1 v2 (opposite (pos k (os j) Relative u None false)) (o_r_star (os j)) (rs j)) (ts m) b /\
      f m j = mixture (flux_ratio (ss j) (rs j) (o_r_star (os j))) a b.
Proof.
  intros k n x xs os o kok sys Ho r rs Hr Hr0 cp u1 u2 v1 v2 s ss N t ts texp es osam order D1 D2 O1 O2 Hs Hs0 Ht Hts He Hst. destruct texp as [e|].
  - destruct Hst as (nodes & weights & St); [discriminate|].
    destruct (second_exposed k n x xs os o kok sys Ho r rs Hr Hr0 cp u1 u2 v1 v2 s ss N t ts e es osam order nodes weights D1 D2 O1 O2 Hs Hs0 Ht Hts He St) as (X & EX & TX).
    eexists X, _. split; [exact EX|]. split; [exact TX|]. intros m j. eexists _, _. split; [exists nodes, weights; split; [exact St|reflexivity]|]. split; [exists nodes, weights; split; [exact St|reflexivity]|]. reflexivity.
  - destruct (second_plain k n x xs os o kok sys Ho r rs Hr Hr0 cp u1 u2 v1 v2 s ss N t ts osam order D1 D2 O1 O2 Hs Hs0 Ht Hts) as (X & EX & TX).
    eexists X, _. split; [exact EX|]. split; [exact TX|]. intros m j. eexists _, _. split; [reflexivity|]. split; reflexivity.
Qed.
Lemma ratio_pos s r rst : 0 <= s -> 0 <= flux_ratio s r rst.
Proof. intro H. unfold flux_ratio. apply Rmult_le_pos; [exact H|apply Rle_0_sqr]. Qed.
Lemma mixture_secondary f b : 0 <= f -> mixture f 0 b = f / (1 + f) * b.
Proof. intro. unfold mixture. field. lra. Qed.
Lemma mixture_primary f a : 0 <= f -> mixture f a 0 = a / (1 + f).
Proof. intro. unfold mixture. field. lra. Qed.
Lemma eclipse_law : forall k n x xs os o, consts_ok k -> system k n x xs os -> kep_init k x = Ok o ->
  forall r rs, planet_values n r rs -> (forall j, (j < n)%nat -> 0 < rs j) ->
  forall cp u1 u2 v1 v2 s ss N t ts texp es osam order,
  disk_flux u1 u2 <> 0 -> disk_flux v1 v2 <> 0 -> one_each n r -> one_each n (o_r_star o) ->
  planet_values n s ss -> (forall j, (j < n)%nat -> 0 <= ss j) ->
  is_vector N t -> (forall m, (m < N)%nat -> aget t (at_time m) = Fin (ts m)) ->
  opt_exposures N texp es -> (forall m, (m < N)%nat -> 0 <= es m) -> (texp <> None -> exists nodes weights, stencil osam order = Ok (nodes, weights)) ->
  exists X f, secondary_light_curve k cp {| se_primary := ld_init (Fin u1) (Fin u2); se_secondary := ld_init (Fin v1) (Fin v2); se_ratio := s |}
      o r (Some t) texp osam order (Some false) false = Ok X /\ light_table n N X f /\
  forall m j, (m < N)%nat -> (j < n)%nat ->
    let during (Q : R * R * R -> Prop) := forall u, Rabs (u - ts m) <= es m / 2 -> Q (pos k (os j) Relative u None false) in
    let F := flux_ratio (ss j) (rs j) (o_r_star (os j)) in
    (during (fun P => vz P < 0 /\ apart P + rs j <= o_r_star (os j)) -> f m j = - (F / (1 + F))) /\
    (during (fun P => 0 < vz P /\ apart P + rs j <= o_r_star (os j)) -> u1 = 0 -> u2 = 0 -> f m j = - (rs j / o_r_star (os j) * (rs j / o_r_star (os j)) / (1 + F))) /\
    (during (fun P => o_r_star (os j) + rs j <= apart P) -> f m j = 0) /\
    (bright v1 v2 -> during (fun P => vz P <= 0) -> - (F / (1 + F)) <= f m j <= 0) /\
    (bright u1 u2 -> during (fun P => 0 <= vz P) -> - (1 / (1 + F)) <= f m j <= 0).
Proof.
  intros k n x xs os o kok sys Ho r rs Hr Hr0 cp u1 u2 v1 v2 s ss N t ts texp es osam order D1 D2 O1 O2 Hs Hs0 Ht Hts He He0 Hst.
  destruct (eclipse_curve k n x xs os o kok sys Ho r rs Hr Hr0 cp u1 u2 v1 v2 s ss N t ts texp es osam order D1 D2 O1 O2 Hs Hs0 Ht Hts He Hst) as (X & f & EX & TX & HF).
  exists X, f. split; [exact EX|]. split; [exact TX|]. intros m j Hm Hj during F. destruct (HF m j) as (a & b & Ha & Hb & ->). fold F.
  assert (F0 : 0 <= F) by (apply ratio_pos; apply Hs0; exact Hj). assert (E0 := He0 m Hm). assert (R0 := Hr0 j Hj). assert (RS := ph_r_star _ (sy_phys _ _ _ _ _ sys j Hj)).
  assert (CA := fun c H => mean_at_const N osam order texp es m _ (ts m) a c He E0 H Ha). assert (CB := fun c H => mean_at_const N osam order texp es m _ (ts m) b c He E0 H Hb).
  assert (BA := fun lo hi H => mean_at_between N osam order texp es m _ (ts m) a lo hi He E0 H Ha). assert (BB := fun lo hi H => mean_at_between N osam order texp es m _ (ts m) b lo hi He E0 H Hb).
  assert (I0 : 0 <= F / (1 + F)) by (apply Rdiv_le_0_compat; lra). assert (I1 : 0 < 1 / (1 + F)) by (apply Rdiv_lt_0_compat; lra).
  split; [|split; [|split; [|split]]].
  - intro H. rewrite (CA 0), (CB (-1)), mixture_secondary by (try assumption; intros u Hu; destruct (H u Hu) as [h1 h2]; try (apply total_flux; assumption); apply behind_flux; try assumption; lra). ring.
  - intros H -> ->. rewrite (CB 0) by (intros u Hu; destruct (H u Hu) as [h1 h2]; apply front_flux; try assumption; lra).
    rewrite (CA (- (rs j / o_r_star (os j) * (rs j / o_r_star (os j))))) by (intros u Hu; destruct (H u Hu) as [h1 h2]; apply flux_flat; try assumption; lra).
    rewrite mixture_primary by exact F0. unfold Rdiv. ring.
  - intro H. rewrite (CA 0), (CB 0) by (intros u Hu; assert (h := H u Hu); cbv beta in h; apply clear_flux; try assumption; rewrite ?apart_opposite; lra). unfold mixture. field. lra.
  - intros B H. rewrite (CA 0) by (intros u Hu; apply behind_flux; try assumption; apply (H u Hu)). rewrite mixture_secondary by exact F0.
    destruct (BB (-1) 0) as [b1 b2]; [intros u Hu; apply flux_low; assumption|]. split; nra.
  - intros B H. rewrite (CB 0) by (intros u Hu; apply front_flux; try assumption; apply (H u Hu)). rewrite mixture_primary by exact F0.
    destruct (BA (-1) 0) as [b1 b2]; [intros u Hu; apply flux_low; assumption|]. replace (a / (1 + F)) with (1 / (1 + F) * a) by (field; lra). split; nra.
Qed.
(** ** where the eclipses are *)
Lemma half_period : forall k (x : kargs R) o t, consts_ok k -> kep_init k x = Ok o -> physical o -> o_ecc o = None ->
  apart (pos k o Relative (t + o_period o / 2) None false) = apart (pos k o Relative t None false) /\
  vz (pos k o Relative (t + o_period o / 2) None false) = - vz (pos k o Relative t None false).
Proof.
  intros k x o t kok Hi Hp Hc. assert (HP := ph_period _ Hp).
  destruct (circ_geom k kok x o t Hi Hp Hc) as [A1 B1]. destruct (circ_geom k kok x o (t + o_period o / 2) Hi Hp Hc) as [A2 B2].
  assert (E : 2 * PI * (t + o_period o / 2 - o_t0 o) / o_period o = 2 * PI * (t - o_t0 o) / o_period o + PI) by (field; lra).
  rewrite E, neg_cos in B2. rewrite E, neg_sin, neg_cos in A2. split.
  - unfold apart. change (pos k o Relative) with (get_relative_position k o (kep_warp o)). rewrite A1, A2. f_equal. ring.
  - change (pos k o Relative) with (get_relative_position k o (kep_warp o)). rewrite B1, B2. ring.
Qed.
Lemma opposite_rel k x o r o' : consts_ok k -> kep_init k x = Ok o -> physical o -> 0 < r -> flip k o r = Ok o' -> forall t, pos k o' Relative t None false = opposite (pos k o Relative t None false).
Proof.
  intros kok Hi Hp Hr Hf t. destruct (flip_law k x o r kok Hi Hp Hr) as (o1 & E & Hp' & _ & _ & _ & M & _). assert (o1 = o') by congruence. subst o1.
  assert (A : pos k o' Relative t None false = vsub (pos k o' Planet t None false) (pos k o' Star t None false)) by exact (rel_pos_eq k kok _ o' Hf Hp' t None).
  assert (B : pos k o Relative t None false = vsub (pos k o Planet t None false) (pos k o Star t None false)) by exact (rel_pos_eq k kok x o Hi Hp t None).
  rewrite A, B. destruct (M t None) as (-> & -> & _). unfold vsub, opposite, vx, vy, vz. cbn. f_equal; [f_equal|]; ring.
Qed.
Lemma conjunction : forall k (x : kargs R) o r, consts_ok k -> kep_init k x = Ok o -> physical o -> 0 < r -> sinw_of o <> 1 ->
  exists o', flip k o r = Ok o' /\ (o_ecc o = None -> o_t0 o' = o_t0 o + o_period o / 2) /\
  forall z : Z, let P := pos k o Relative (o_t0 o' + IZR z * o_period o) None false in
    apart P = Rabs (o_b o) * o_r_star o * ((1 + ecc_of o * sinw_of o) / (1 - ecc_of o * sinw_of o)) /\
    vz P = - (o_a o * (1 - ecc_of o * ecc_of o) / (1 - ecc_of o * sinw_of o) * o_sin_incl o) /\ 0 < o_a o * (1 - ecc_of o * ecc_of o) / (1 - ecc_of o * sinw_of o).
Proof.
  intros k x o r kok Hi Hp Hr Hw. destruct (flip_init k x o r kok Hi Hp Hr) as (o' & Hf & Hp' & E1 & E2 & E3 & E4 & E5 & E6 & E7 & E8 & E9).
  assert (F := kep_init_facts k kok x o Hi Hp). assert (F' := kep_init_facts k kok _ o' Hf Hp'). exists o'. split; [exact Hf|].
  assert (Ec : ecc_of o' = ecc_of o). { unfold ecc_of. destruct (o_ecc o); destruct E9 as [Q1 Q2]; [rewrite Q2|rewrite Q1]; reflexivity. }
  assert (Es : sinw_of o' = - sinw_of o). { unfold sinw_of. destruct (o_ecc o) as [d|] eqn:D; destruct E9 as [Q1 Q2]; [rewrite Q2|rewrite Q1; ring]. cbn. destruct (of_omega _ _ _ F d D) as [_ ->]. rewrite sin_minus, cos_PI, sin_PI. ring. }
  split.
  - intro D. rewrite D in E9. destruct E9 as [Q1 Q2]. rewrite (of_t0 _ _ _ F'), (of_t0 _ _ _ F), (of_M0_circ _ _ _ F' Q1), (of_M0_circ _ _ _ F D), Q2, (of_n _ _ _ F), (of_n _ _ _ F'), E2. lra.
  - intros z P.
    assert (PP : P = opposite (pos k o' Relative (o_t0 o') None false)).
    { unfold P. destruct (periodic_motion k x o (o_t0 o') z None false None None kok Hi Hp) as [Q _]. cbv zeta in Q. destruct (Q Relative) as [Q1 _]. rewrite Q1, (opposite_rel k x o r o' kok Hi Hp Hr Hf). unfold opposite, vx, vy, vz. destruct (pos k o Relative (o_t0 o') None false) as [[a b] c]. cbn. rewrite !Ropp_involutive. reflexivity. }
    destruct (mid_transit k _ o' kok Hf Hp') as (M1 & M2 & M3); [rewrite Es; intro Q; apply Hw; lra|].
    rewrite Ec, Es, E1 in M2, M3. replace (1 + ecc_of o * - sinw_of o) with (1 - ecc_of o * sinw_of o) in M2, M3 by ring.
    destruct (b_incl_relation k kok x o Hi Hp) as (_ & _ & R1). destruct (b_incl_relation k kok _ o' Hf Hp') as (_ & S2 & R2). destruct (b_incl_relation k kok x o Hi Hp) as (_ & S1 & _).
    assert (Esi : o_sin_incl o' = o_sin_incl o) by (rewrite S1, S2, E6; reflexivity). rewrite Esi in M2.
    split; [|split; [|exact M3]].
    + rewrite PP, apart_opposite. unfold apart. change (pos k o' Relative) with (get_relative_position k o' (kep_warp o')). rewrite M1.
      rewrite E7, R1, Ec, Es, E1, E3 in R2. rewrite E3. 
      assert (e0 : 0 <= ecc_of o < 1). { unfold ecc_of. destruct (o_ecc o) as [d|] eqn:D; [apply (ph_ecc _ Hp d D)|lra]. }
      assert (w0 : -1 <= sinw_of o <= 1). { unfold sinw_of. destruct (o_ecc o) as [d|] eqn:D; [|lra]. destruct (of_omega _ _ _ F d D) as [_ ->]. apply SIN_bound. }
      assert (Ha := ph_a _ Hp). assert (Hrs := ph_r_star _ Hp). set (e := ecc_of o) in *. set (w := sinw_of o) in *.
      assert (p1 : 0 < 1 + e * w) by nra. assert (p2 : 0 < 1 - e * w) by nra. assert (p3 : 0 < 1 - e * e) by nra.
      assert (K : o_b o' * r = o_b o * o_r_star o * ((1 + e * w) / (1 - e * w))).
      { apply (Rmult_eq_reg_r ((1 - e * w) / (1 - e * e) / o_a o)). 2:{ apply Rgt_not_eq. apply Rdiv_lt_0_compat; [apply Rdiv_lt_0_compat; assumption|exact Ha]. }
        transitivity (o_b o' * (r / o_a o) * ((1 + e * - w) / (1 - e * e))); [field; repeat split; lra|]. rewrite <- R2. field. repeat split; lra. }
      rewrite <- (Rabs_pos_eq r) at 1 by lra. rewrite <- Rabs_mult, K, !Rabs_mult, (Rabs_pos_eq (o_r_star o)) by lra. rewrite (Rabs_pos_eq ((1 + e * w) / (1 - e * w))) by (apply Rdiv_le_0_compat; lra). reflexivity.
    + rewrite PP. transitivity (- vz (pos k o' Relative (o_t0 o') None false)); [reflexivity|]. change (pos k o' Relative) with (get_relative_position k o' (kep_warp o')). rewrite M2. ring.
Qed.
(** ** the time of the eclipses *)
Lemma t0_anomaly k (x : kargs R) o : consts_ok k -> kep_init k x = Ok o -> physical o -> sinw_of o <> -1 ->
  exists E, o_n o * (o_t0 o - o_tper o) = E - ecc_of o * sin E /\ cos E = (ecc_of o + sinw_of o) / (1 + ecc_of o * sinw_of o) /\
    sin E = sqrt (1 - ecc_of o * ecc_of o) * cosw_of o / (1 + ecc_of o * sinw_of o).
Proof.
  intros kok H Hp Hs. assert (F := kep_init_facts k kok x o H Hp). assert (Hn := n_pos k kok x o H Hp).
  assert (He := eo_bound o Hp). assert (Hea := eo_abs o Hp). assert (Hw := w_unit o Hp).
  assert (EM : o_n o * (o_t0 o - o_tper o) = o_M0 o). { rewrite (of_t0 _ _ _ F). field. lra. }
  assert (Hcs : kepler_sinf (o_M0 o) (eo o) = cosw_of o /\ kepler_cosf (o_M0 o) (eo o) = sinw_of o).
  { destruct (o_ecc o) as [d|] eqn:E.
    - rewrite (of_M0_ecc _ _ _ F d E). unfold kep_M0. simR.
      assert (eo o = e_ecc d) as He' by (unfold eo, ecc_of; rewrite E; auto).
      assert (cosw_of o = e_cosw d) as Hc by (unfold cosw_of; rewrite E; auto).
      assert (sinw_of o = e_sinw d) as Hs' by (unfold sinw_of; rewrite E; auto).
      rewrite He', Hc, Hs' in *. apply conj_anomaly; auto.
    - assert (eo o = 0) as -> by (unfold eo, ecc_of; rewrite E; auto).
      rewrite (of_M0_circ _ _ _ F E), kepler_sinf_0, kepler_cosf_0, sin_PI2, cos_PI2.
      unfold cosw_of, sinw_of. rewrite E. auto. }
  destruct Hcs as [H1 H2]. change (ecc_of o) with (eo o). set (e := eo o) in *. set (s := sinw_of o) in *. set (c := cosw_of o) in *.
  exists (ecc_anom (o_M0 o) e). split; [rewrite EM; symmetry; apply ecc_anom_spec; exact Hea|].
  unfold kepler_sinf in H1. unfold kepler_cosf in H2. set (E := ecc_anom (o_M0 o) e) in *.
  assert (CB := COS_bound E). assert (sb : -1 <= s <= 1) by nra. assert (q0 : 0 < 1 - e * e) by nra. assert (Q := sqrt_sqrt (1 - e * e) ltac:(lra)). assert (qp := sqrt_lt_R0 _ q0). set (q := sqrt (1 - e * e)) in *.
  assert (d0 : 0 < 1 - e * cos E) by nra. assert (p1 : 0 < 1 + e * s) by nra.
  assert (C : cos E = (e + s) / (1 + e * s)). { apply (Rmult_eq_reg_r (1 + e * s)); [|lra]. replace ((e + s) / (1 + e * s) * (1 + e * s)) with (e + s) by (field; lra). assert (K : s * (1 - e * cos E) = cos E - e) by (rewrite <- H2; field; lra). lra. }
  split; [exact C|]. assert (D : 1 - e * cos E = q * q / (1 + e * s)) by (rewrite C, Q; field; lra).
  assert (K : c * (1 - e * cos E) = q * sin E) by (rewrite <- H1; field; lra). rewrite D in K. apply (Rmult_eq_reg_l q); [|lra]. rewrite <- K. field. lra.
Qed.
Lemma timing : forall k (x : kargs R) o r, consts_ok k -> kep_init k x = Ok o -> physical o -> 0 < r -> sinw_of o <> 1 -> sinw_of o <> -1 ->
  exists o' (z : Z), flip k o r = Ok o' /\
    let e := ecc_of o in let q := sqrt (1 - e * e) in
    o_t0 o' = o_t0 o + o_period o / 2 + o_period o / PI * (atan (e * cosw_of o / q) + e * cosw_of o * q / (1 - e * e * (sinw_of o * sinw_of o))) + IZR z * o_period o.
Proof.
  intros k x o r kok Hi Hp Hr Hw Hw'. destruct (flip_init k x o r kok Hi Hp Hr) as (o' & Hf & Hp' & E1 & E2 & E3 & E4 & E5 & E6 & E7 & E8 & E9).
  destruct (conjunction k x o r kok Hi Hp Hr Hw) as (o1 & Hf1 & T0 & _). assert (o1 = o') by congruence. subst o1. exists o'.
  assert (F := kep_init_facts k kok x o Hi Hp). assert (F' := kep_init_facts k kok _ o' Hf Hp').
  destruct (o_ecc o) as [d|] eqn:D.
  2:{ exists 0%Z. split; [exact Hf|]. intros e q. rewrite (T0 eq_refl). assert (Ee : e = 0) by (unfold e, ecc_of; rewrite D; reflexivity). rewrite Ee.
      replace (0 * cosw_of o / q) with 0 by (unfold Rdiv; ring). rewrite atan_0. unfold Rdiv. ring. }
  destruct E9 as [Q1 Q2].
  assert (Ec : ecc_of o' = ecc_of o) by (unfold ecc_of; rewrite Q2, D; reflexivity).
  assert (Es : sinw_of o' = - sinw_of o). { unfold sinw_of. rewrite Q2, D. cbn. destruct (of_omega _ _ _ F d D) as [_ ->]. rewrite sin_minus, cos_PI, sin_PI. ring. }
  assert (Eco : cosw_of o' = - cosw_of o). { unfold cosw_of. rewrite Q2, D. cbn. destruct (of_omega _ _ _ F d D) as [-> _]. rewrite cos_minus, cos_PI, sin_PI. ring. }
  destruct (t0_anomaly k x o kok Hi Hp Hw') as (A & A1 & A2 & A3). destruct (t0_anomaly k _ o' kok Hf Hp') as (B & B1 & B2 & B3); [rewrite Es; intro; apply Hw; lra|].
  rewrite Ec, Es in B2. rewrite Ec, Es, Eco in B3. rewrite Ec in B1.
  assert (He := eo_bound o Hp). assert (Hwu := w_unit o Hp). change (ecc_of o) with (eo o) in *. set (e := eo o) in *. set (s := sinw_of o) in *. set (c := cosw_of o) in *.
  assert (sb : -1 <= s <= 1) by nra. assert (q0 : 0 < 1 - e * e) by nra. assert (Q := sqrt_sqrt (1 - e * e) ltac:(lra)). assert (qp := sqrt_lt_R0 _ q0). set (q := sqrt (1 - e * e)) in *.
  assert (p1 : 0 < 1 + e * s) by nra. assert (p2 : 0 < 1 - e * s) by nra. assert (p3 : 0 < 1 - e * e * (s * s)) by nra.
  assert (P1 : 1 + e * - s <> 0) by lra. assert (Hcc : c * c = 1 - s * s) by lra.
  set (tau := e * c / q). assert (tt : 1 + tau * tau = (1 - e * e * (s * s)) / (q * q)).
  { unfold tau. replace (1 - e * e * (s * s)) with (q * q + e * e * (c * c)) by (rewrite Q, Hcc; ring). field. lra. }
  assert (tp : 0 < 1 + tau * tau) by nra.
  assert (CA : cos (2 * atan tau) = (1 - tau * tau) / (1 + tau * tau)).
  { rewrite cos_2a_cos. assert (Z := cos_atan tau). assert (Y : cos (atan tau) * cos (atan tau) = 1 / (1 + tau * tau)).
    { rewrite Z. unfold Rsqr. replace (1 / sqrt (1 + tau * tau) * (1 / sqrt (1 + tau * tau))) with (1 / (sqrt (1 + tau * tau) * sqrt (1 + tau * tau))) by (field; apply Rgt_not_eq, sqrt_lt_R0; exact tp). rewrite sqrt_sqrt by lra. reflexivity. }
    rewrite Rmult_assoc, Y. field. lra. }
  assert (SA : sin (2 * atan tau) = 2 * tau / (1 + tau * tau)).
  { rewrite sin_2a, sin_atan, cos_atan. unfold Rsqr. replace (2 * (tau / sqrt (1 + tau * tau)) * (1 / sqrt (1 + tau * tau))) with (2 * tau / (sqrt (1 + tau * tau) * sqrt (1 + tau * tau))) by (field; apply Rgt_not_eq, sqrt_lt_R0; exact tp). rewrite sqrt_sqrt by lra. reflexivity. }
  assert (W : exists z : Z, B - A = 2 * atan tau + PI + IZR z * (2 * PI)).
  { apply sincos_inj.
    - rewrite neg_sin, SA, sin_minus, A2, A3, B2, B3, tt. unfold tau. field_simplify_eq; [|repeat split; lra].
      replace (e ^ 3) with (e * e * e) by ring. nra.
    - rewrite neg_cos, CA, cos_minus, A2, A3, B2, B3, tt. unfold tau.
      replace (1 - e * c / q * (e * c / q)) with ((q * q - e * e * (c * c)) / (q * q)) by (field; lra). rewrite Hcc.
      replace (q * - c / (1 + e * - s) * (q * c / (1 + e * s))) with (- (q * q) * (c * c) / ((1 + e * - s) * (1 + e * s))) by (field; lra). rewrite Q, Hcc. field. repeat split; lra. }
  destruct W as (z & W). exists z. split; [exact Hf|]. intros e' q'. subst e' q'.
  assert (HP := ph_period _ Hp). assert (Hpi := PI_RGT_0). rewrite (of_n _ _ _ F) in A1. rewrite (of_n _ _ _ F'), E2, Q1 in B1.
  assert (DT : 2 * PI / o_period o * (o_t0 o' - o_t0 o) = B - A - e * (sin B - sin A)) by lra. rewrite W, A3, B3 in DT.
  replace (o_t0 o') with (o_t0 o + o_period o / (2 * PI) * (2 * PI / o_period o * (o_t0 o' - o_t0 o))) by (field; split; lra). rewrite DT.
  change (sqrt (1 - e * e)) with q. fold tau. set (at' := atan tau). clearbody at'. field. repeat split; lra.
Qed.
