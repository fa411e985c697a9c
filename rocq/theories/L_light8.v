(** * Light curves of the library's orbits; radius ratio from depth; errors *)
From Coq Require Import Reals List Bool Arith ZArith Lra Lia Psatz Sorted String.
From Coquelicot Require Import Coquelicot.
From Verif Require Import Num CoreOps Inst CoreFlux M_units M_kepler M_fin M_tensor M_simple M_ttv M_limbdark Spec_orbit Spec_params Spec_array Spec_simple Spec_light
  L_real L_params3 L_fl L_fl2 L_fl3 L_fl4 L_tens L_shape L_shapeS L_transit3 L_transit4 L_transit5 L_transit6 L_array L_ptransit L_simple L_simple2 L_reshape L_flux L_light1 L_light2 L_light3 L_light4 L_light5 L_light6 L_light7.
Import ListNotations.
Local Notation length := List.length.
Open Scope R_scope.

(** ** in_transit contracts *)
Lemma overlaps_transits k o r s : overlaps (pos k o Relative s None false) r (o_r_star o) -> transits k o r s.
Proof. intros [H1 H2]. split; [exact H1|left; exact H2]. Qed.

Lemma one_opt n e : opt_values n (one_texp e) (fun _ => pad_of e).
Proof. destruct e as [v|]; [apply scalar_values|intros _; reflexivity]. Qed.
Lemma one_exp N e : opt_exposures N (one_texp e) (fun _ => pad_of e).
Proof.
  destruct e as [v|]; [|intros _; reflexivity]. split; [intros s Hs i j _; reflexivity|]. left. split; reflexivity.
Qed.
Lemma finds_circ k n x xs os o cp rs N t ts e : consts_ok k -> system k n x xs os -> kep_init k x = Ok o -> 0 <= pad_of e ->
  is_vector N t -> (forall m, (m < N)%nat -> aget t (at_time m) = Fin (ts m)) ->
  (forall j, (j < n)%nat -> ka_ecc (xs j) = None /\ 0 <= rs j /\ o_r_star (os j) + rs j < o_a (os j) /\ 0 <= o_sin_incl (os j)) ->
  finds_transits (kep_api k (lift_cp cp) o) false n (fun j s => pos k (os j) Relative s None false) (fun j => o_r_star (os j)) rs N t ts (one_texp e) (fun _ => pad_of e).
Proof.
  intros kok sys Ho He Ht Hts G r Hr.
  destruct (in_transit_circ k n N x xs os r rs (one_texp e) (fun _ => pad_of e) t ts cp kok sys Hr (one_opt n e) (fun _ _ => He) Ht Hts G) as (o' & l & Ho' & El & _ & Il).
  rewrite Ho in Ho'. apply Ok_inj in Ho'. subst o'. exists l. split; [exact El|]. split; [intros m Hm; apply Il, Hm|].
  intros m j s Hm Hj Hs Hov. apply Il. split; [exact Hm|]. exists j, s. split; [exact Hj|]. split; [exact Hs|apply overlaps_transits, Hov].
Qed.
Lemma finds_ecc k n x xs os o cp rs N t ts e al be : consts_ok k -> system k n x xs os -> kep_init k x = Ok o -> 0 <= pad_of e ->
  is_vector N t -> (forall m, (m < N)%nat -> aget t (at_time m) = Fin (ts m)) ->
  (forall j, (j < n)%nat -> ka_ecc (xs j) <> None /\ transit_interval k (os j) (rs j) (al j) (be j) /\ solved cp (os j) (rs j) (al j) (be j) /\
     al j + pad_of e / 2 < o_period (os j) / 2 /\ be j + pad_of e / 2 < o_period (os j) / 2) ->
  finds_transits (kep_api k (lift_cp cp) o) false n (fun j s => pos k (os j) Relative s None false) (fun j => o_r_star (os j)) rs N t ts (one_texp e) (fun _ => pad_of e).
Proof.
  intros kok sys Ho He Ht Hts G r Hr.
  destruct (in_transit_exact k n N x xs os r rs (one_texp e) (fun _ => pad_of e) t ts cp kok sys Hr (one_opt n e) (fun _ _ => He) Ht Hts al be G) as (o' & l & Ho' & El & _ & Il).
  rewrite Ho in Ho'. apply Ok_inj in Ho'. subst o'. exists l. split; [exact El|]. split; [intros m Hm; apply Il, Hm|].
  intros m j s Hm Hj Hs Hov. apply Il. split; [exact Hm|]. exists j, s. split; [exact Hj|]. split; [exact Hs|apply overlaps_transits, Hov].
Qed.
Lemma finds_flag k n x xs os o cp rs N t ts e j0 : consts_ok k -> system k n x xs os -> kep_init k x = Ok o ->
  is_vector N t -> (forall m, (m < N)%nat -> aget t (at_time m) = Fin (ts m)) ->
  (j0 < n)%nat -> o_ecc (os j0) <> None -> snd (solver_answer cp (os j0) (rs j0)) <> Fin 0 ->
  finds_transits (kep_api k (lift_cp cp) o) false n (fun j s => pos k (os j) Relative s None false) (fun j => o_r_star (os j)) rs N t ts (one_texp e) (fun _ => pad_of e).
Proof.
  intros kok sys Ho Ht Hts Hj He0 Hf r Hr.
  destruct (in_transit_flag k n N x xs os r rs (one_texp e) (fun _ => pad_of e) t ts cp kok sys Hr (one_opt n e) Ht Hts j0 Hj He0 Hf) as (o' & Ho' & El).
  rewrite Ho in Ho'. apply Ok_inj in Ho'. subst o'. exists (seq 0 N). split; [exact El|]. split; [intros m Hm; apply in_seq in Hm; lia|].
  intros m j s Hm _ _ _. apply in_seq. lia.
Qed.
(** one planet, one exposure time per observation *)
Lemma vector_exp N es : opt_exposures N (Some (vector N es)) es.
Proof.
  destruct (vector_values N es) as [[W [E|E]] V]; [discriminate E|]. split; [exact W|]. right. split; [exact E|]. intros m Hm. apply V, Hm.
Qed.
Lemma finds_each k x xs os o cp rs N t ts es : consts_ok k -> system k 1 x xs os -> kep_init k x = Ok o -> (forall q, (q < N)%nat -> 0 <= es q) ->
  is_vector N t -> (forall m, (m < N)%nat -> aget t (at_time m) = Fin (ts m)) ->
  ka_ecc (xs 0%nat) = None -> 0 <= rs 0%nat /\ o_r_star (os 0%nat) + rs 0%nat < o_a (os 0%nat) /\ 0 <= o_sin_incl (os 0%nat) ->
  finds_transits (kep_api k (lift_cp cp) o) false 1 (fun j s => pos k (os j) Relative s None false) (fun j => o_r_star (os j)) rs N t ts (Some (vector N es)) es.
Proof.
  intros kok sys Ho He Ht Hts Ec G r Hr.
  destruct (texp_one_planet k 1 N x xs os r rs es t ts cp kok sys Hr Ht Hts) as (o' & l & Ho' & El & _ & Il); [|reflexivity|exact G|exact He|].
  { intros j Hj. replace j with O by lia. exact Ec. }
  rewrite Ho in Ho'. apply Ok_inj in Ho'. subst o'. exists l. split; [exact El|]. split; [intros m Hm; apply Il, Hm|].
  intros m j s Hm Hj Hs Hov. apply Il. split; [exact Hm|]. exists m, s. split; [exact Hm|]. split; [exact Hs|]. replace j with O in Hov by lia. apply overlaps_transits, Hov.
Qed.
Lemma finds_simple n x xs rs N t ts e : simple_system n x xs -> (forall j, (j < n)%nat -> simple_ok (xs j)) -> 0 <= pad_of e ->
  is_vector N t -> (forall m, (m < N)%nat -> aget t (at_time m) = Fin (ts m)) ->
  (forall j, (j < n)%nat -> 0 <= rs j /\ Rabs (dflt 0 (sa_b (xs j))) < 1 + dflt 0 (sa_ror (xs j)) /\
     Rabs (dflt 0 (sa_b (xs j))) * dflt 1 (sa_r_star (xs j)) <> dflt 1 (sa_r_star (xs j)) + rs j) ->
  finds_transits (simple_api (simple_init x)) false n (fun j s => spos (xs j) s) (fun j => dflt 1 (sa_r_star (xs j))) rs N t ts (one_texp e) (fun _ => pad_of e).
Proof.
  intros sys ok He Ht Hts G r Hr.
  destruct (simple_in_r n N x xs t ts r rs (one_texp e) (fun _ => pad_of e) sys ok Ht Hts Hr (one_opt n e) (fun _ _ => He) G) as (l & El & _ & Il).
  exists l. split; [exact El|]. split; [intros m Hm; apply Il, Hm|].
  intros m j s Hm Hj Hs Hov. apply Il. split; [exact Hm|]. exists j. split; [exact Hj|]. exists s. split; [exact Hs|]. destruct Hov as [_ H2]. exact H2.
Qed.

(** ** light curves of the library's orbits *)
Lemma lc_kepler : forall u1 u2 k n (x : kargs tens) xs os o cp r rs N t ts os' order,
  disk_flux u1 u2 <> 0 -> consts_ok k -> system k n x xs os -> kep_init k x = Ok o ->
  elements n r rs -> is_vector N t -> (forall m, (m < N)%nat -> aget t (at_time m) = Fin (ts m)) ->
  exists X, get_light_curve (ld_init (Fin u1) (Fin u2)) (Some (kep_api k cp o)) (Some r) (Some t) None os' order (Some false) false = Ok X /\
    light_table n N X (fun m j => flux_at u1 u2 (pos k (os j) Relative (ts m) None false) (rs j) (o_r_star (os j))).
Proof.
  intros u1 u2 k n x xs os o cp r rs N t ts os' order Hd kok sys Ho Hr Ht Hts. destruct (kepler_answers k n x xs os o cp kok sys Ho) as [HA Hs].
  apply (lc_plain u1 u2 (kep_api k cp o) false n (fun j s => pos k (os j) Relative s None false) (fun j => o_r_star (os j))); try assumption.
  intros j Hj. assert (P := ph_r_star _ (sy_phys _ _ _ _ _ sys j Hj)). lra.
Qed.
Lemma lc_kepler_exposed : forall u1 u2 k n (x : kargs tens) xs os o cp r rs N t ts e es os' order nodes weights,
  disk_flux u1 u2 <> 0 -> consts_ok k -> system k n x xs os -> kep_init k x = Ok o ->
  elements n r rs -> is_vector N t -> (forall m, (m < N)%nat -> aget t (at_time m) = Fin (ts m)) ->
  exposures N e es -> stencil os' order = Ok (nodes, weights) ->
  exists X, get_light_curve (ld_init (Fin u1) (Fin u2)) (Some (kep_api k cp o)) (Some r) (Some t) (Some e) os' order (Some false) false = Ok X /\
    light_table n N X (fun m j => node_mean nodes weights (fun s => flux_at u1 u2 (pos k (os j) Relative s None false) (rs j) (o_r_star (os j))) (ts m) (es m)).
Proof.
  intros u1 u2 k n x xs os o cp r rs N t ts e es os' order nodes weights Hd kok sys Ho Hr Ht Hts He Hst. destruct (kepler_answers k n x xs os o cp kok sys Ho) as [HA Hs].
  apply (lc_exposed u1 u2 (kep_api k cp o) false n (fun j s => pos k (os j) Relative s None false) (fun j => o_r_star (os j)) r rs N t ts e es os' order nodes weights); try assumption.
  intros j Hj. assert (P := ph_r_star _ (sy_phys _ _ _ _ _ sys j Hj)). lra.
Qed.
Lemma lc_simple : forall u1 u2 n x xs r rs N t ts e es os' order nodes weights,
  disk_flux u1 u2 <> 0 -> simple_system n x xs -> (forall j, (j < n)%nat -> simple_ok (xs j)) ->
  elements n r rs -> is_vector N t -> (forall m, (m < N)%nat -> aget t (at_time m) = Fin (ts m)) ->
  exposures N e es -> stencil os' order = Ok (nodes, weights) ->
  exists X, get_light_curve (ld_init (Fin u1) (Fin u2)) (Some (simple_api (simple_init x))) (Some r) (Some t) (Some e) os' order (Some false) false = Ok X /\
    light_table n N X (fun m j => node_mean nodes weights (fun s => flux_at u1 u2 (spos (xs j) s) (rs j) (dflt 1 (sa_r_star (xs j)))) (ts m) (es m)).
Proof.
  intros u1 u2 n x xs r rs N t ts e es os' order nodes weights Hd sys ok Hr Ht Hts He Hst. destruct (simple_answers n x xs sys ok) as [HA Hs].
  apply (lc_exposed u1 u2 (simple_api (simple_init x)) false n (fun j s => spos (xs j) s) (fun j => dflt 1 (sa_r_star (xs j))) r rs N t ts e es os' order nodes weights); try assumption.
  intros j Hj. assert (P := so_r_star _ (ok j Hj)). lra.
Qed.
Lemma lc_simple_plain : forall u1 u2 n x xs r rs N t ts os' order,
  disk_flux u1 u2 <> 0 -> simple_system n x xs -> (forall j, (j < n)%nat -> simple_ok (xs j)) ->
  elements n r rs -> is_vector N t -> (forall m, (m < N)%nat -> aget t (at_time m) = Fin (ts m)) ->
  exists X, get_light_curve (ld_init (Fin u1) (Fin u2)) (Some (simple_api (simple_init x))) (Some r) (Some t) None os' order (Some false) false = Ok X /\
    light_table n N X (fun m j => flux_at u1 u2 (spos (xs j) (ts m)) (rs j) (dflt 1 (sa_r_star (xs j)))).
Proof.
  intros u1 u2 n x xs r rs N t ts os' order Hd sys ok Hr Ht Hts. destruct (simple_answers n x xs sys ok) as [HA Hs].
  apply (lc_plain u1 u2 (simple_api (simple_init x)) false n (fun j s => spos (xs j) s) (fun j => dflt 1 (sa_r_star (xs j)))); try assumption.
  intros j Hj. assert (P := so_r_star _ (ok j Hj)). lra.
Qed.

(** ** C43 *)
Lemma fl_sqrt x : 0 <= x -> fsqrt (Fin x) = Fin (sqrt x).
Proof. intro H. cbn. unfold Rltb. destruct (Rlt_dec x 0); [lra|reflexivity]. Qed.
Lemma approx_fin u1 u2 d b : 0 < d -> Rabs b <= 1 -> 0 < disk_flux u1 u2 -> 0 < intensity u1 u2 (sqrt (1 - b * b)) ->
  let F := disk_flux u1 u2 / PI / intensity u1 u2 (sqrt (1 - b * b)) in
  approx_ror (Fin u1) (Fin u2) (Fin d) (Fin b) = (Fin (sqrt (d * F)), Fin (/ 2 * F / sqrt (d * F))).
Proof.
  intros Hd Hb Hf Hi. cbv zeta. assert (Hpi := PI_RGT_0). set (I := intensity u1 u2 (sqrt (1 - b * b))) in *. set (F := disk_flux u1 u2 / PI / I).
  assert (HF : 0 < F) by (unfold F; apply Rdiv_lt_0_compat; [apply Rdiv_lt_0_compat; assumption|assumption]).
  assert (B2 : 0 <= 1 - b * b). { apply Rabs_le_between in Hb. nra. }
  assert (SF : 0 < sqrt (d * F)) by (apply sqrt_lt_R0, Rmult_lt_0_compat; assumption).
  unfold approx_ror. cbn [nlit NumF nsub nmul ndiv npw nsqrt fmul fsub fdiv fneg fadd].
  rewrite (Reqb_ne 6 0), (Reqb_ne 12 0) by lra. rewrite (fl_sqrt (1 + - (b * b))) by lra. unfold fsub. cbn [fmul fsub fdiv fneg fadd].
  replace (1 + - (b * b)) with (1 - b * b) by ring. set (mu := sqrt (1 - b * b)) in *.
  replace (1 + - (u1 * (1 + - mu)) + - (u2 * ((1 + - mu) * (1 + - mu)))) with I by (unfold I, intensity; ring).
  rewrite (Reqb_ne I 0) by lra. cbn [fmul].
  replace ((1 + - (2 * u1 / 6) + - (2 * u2 / 12)) / I) with F by (unfold F; rewrite disk_value; field; lra).
  rewrite (fl_sqrt (d * F)) by nra. cbn [fdiv]. rewrite (Reqb_ne (sqrt (d * F)) 0) by lra. f_equal. f_equal. replace 0.5 with (/ 2) by lra. reflexivity.
Qed.
Lemma ror_from_depth : forall u1 u2 (delta b : tens) s i d bb,
  twf delta -> twf b -> (ash delta = Ok s \/ ash delta = Ok []) -> ash b = Ok s -> inside s i -> aget delta i = Fin d -> aget b i = Fin bb ->
  0 < d -> Rabs bb <= 1 -> 0 < disk_flux u1 u2 -> 0 < intensity u1 u2 (sqrt (1 - bb * bb)) ->
  exists R J v v', get_ror_from_approx_transit_depth (ld_init (Fin u1) (Fin u2)) delta b true = (R, Some J) /\
    get_ror_from_approx_transit_depth (ld_init (Fin u1) (Fin u2)) delta b false = (R, None) /\
    ash R = Ok s /\ ash J = Ok s /\ aget R i = Fin v /\ aget J i = Fin v' /\
    0 < v /\ depth u1 u2 bb v = d /\ (forall q, 0 < q -> depth u1 u2 bb q = d -> q = v) /\
    (forall g, (forall d', 0 < d' -> 0 < g d' /\ depth u1 u2 bb (g d') = d') -> is_derive g d v').
Proof.
  intros u1 u2 delta b s i d bb Wd Wb Sd Sb Hi Vd Vb Hd Hb Hf HI. assert (Hpi := PI_RGT_0).
  set (F := disk_flux u1 u2 / PI / intensity u1 u2 (sqrt (1 - bb * bb))).
  assert (HF : 0 < F) by (unfold F; apply Rdiv_lt_0_compat; [apply Rdiv_lt_0_compat; assumption|assumption]).
  assert (AF := approx_fin u1 u2 d bb Hd Hb Hf HI). cbv zeta in AF. fold F in AF.
  assert (SF : 0 < sqrt (d * F)) by (apply sqrt_lt_R0, Rmult_lt_0_compat; assumption).
  set (A := approx_ror (alit (Fin u1)) (alit (Fin u2)) delta b : tens * tens).
  assert (SA : ash (fst A) = Ok s /\ ash (snd A) = Ok s).
  { unfold A, approx_ror. cbn [fst snd nlit NumT nsub nmul ndiv npw nsqrt amap amap2 alit ash]. rewrite Sb. destruct Sd as [E|E]; rewrite E; cbn [bcr bc]; rewrite ?bc_refl, ?bc_nil; cbn [bcr bc]; rewrite ?bc_refl, ?bc_nil; cbn [bcr bc]; rewrite ?bc_refl, ?bc_nil; split; reflexivity. }
  assert (VA : forall j, (aget (fst A) j, aget (snd A) j) = approx_ror (Fin u1) (Fin u2) (aget delta j) (aget b j)) by reflexivity.
  set (j := unlin s (lin s i)). assert (Ej : forall k, (k < length s)%nat -> j k = i k) by (apply unlin_lin, Hi).
  assert (Ed : aget delta j = Fin d). { rewrite <- Vd. destruct Sd as [E|E]; apply (Wd _ E); intros q Hq.
    - apply Ej. destruct (le_lt_dec (length s) q); [rewrite nth_overflow in Hq by assumption; contradiction|assumption].
    - destruct q; cbn in Hq; contradiction. }
  assert (Eb : aget b j = Fin bb). { rewrite <- Vb. apply (Wb _ Sb). intros q Hq. apply Ej. destruct (le_lt_dec (length s) q); [rewrite nth_overflow in Hq by assumption; contradiction|assumption]. }
  specialize (VA j). rewrite Ed, Eb, AF in VA.
  exists (areshape (ash b) (fst A)), (areshape (ash b) (snd A)), (sqrt (d * F)), (/ 2 * F / sqrt (d * F)).
  assert (EG : forall jac, get_ror_from_approx_transit_depth (ld_init (Fin u1) (Fin u2)) delta b jac = (areshape (ash b) (fst A), if jac then Some (areshape (ash b) (snd A)) else None)).
  { intro jac. unfold get_ror_from_approx_transit_depth. cbn [ld_u1 ld_u2 ld_init]. change (approx_ror (alit (Fin u1)) (alit (Fin u2)) delta b) with A. destruct A. reflexivity. }
  split; [apply EG|]. split; [apply EG|]. rewrite Sb. split; [apply (reshape_sh (fst A) s s (proj1 SA) eq_refl)|]. split; [apply (reshape_sh (snd A) s s (proj2 SA) eq_refl)|].
  split. { rewrite (reshape_at (fst A) s s i (proj1 SA)). unfold flat. rewrite (proj1 SA). fold j. apply (f_equal fst) in VA. exact VA. }
  split. { rewrite (reshape_at (snd A) s s i (proj2 SA)). unfold flat. rewrite (proj2 SA). fold j. apply (f_equal snd) in VA. exact VA. }
  set (I := intensity u1 u2 (sqrt (1 - bb * bb))) in *.
  assert (DQ : forall q, depth u1 u2 bb q = q * q / F). { intro q. unfold depth, F. fold I. field. lra. }
  assert (UQ : forall q e, 0 < q -> 0 < e -> depth u1 u2 bb q = e -> q = sqrt (e * F)).
  { intros q e Hq He E. rewrite DQ in E. rewrite <- E. replace (q * q / F * F) with (q * q) by (field; lra). symmetry. apply sqrt_square. lra. }
  split; [exact SF|]. split; [rewrite DQ, sqrt_sqrt by nra; field; lra|]. split; [intros q Hq E; apply UQ; assumption|].
  intros g Hg. apply (is_derive_ext_loc (fun e => sqrt (e * F))).
  - exists (mkposreal d Hd). intros y Hy. cbn in Hy. unfold ball in Hy. cbn in Hy. unfold AbsRing_ball, abs, minus, plus, opp in Hy. cbn in Hy. apply Rabs_lt_between in Hy.
    assert (0 < y) by lra. destruct (Hg y H) as [G1 G2]. symmetry. apply UQ; assumption.
  - auto_derive; [nra|]. field. lra.
Qed.

(** ** C45 *)
Lemma lc_missing_error : forall l orbit r t texp os order use ld, orbit = None \/ r = None \/ t = None -> get_light_curve l orbit r t texp os order use ld = Err ValueError.
Proof. intros. destruct orbit, r, t; try reflexivity. destruct H as [H|[H|H]]; discriminate H. Qed.
Lemma lc_bad_order : forall l A r t e os order ld, (os < 0)%Z \/ ~ (order = 0 \/ order = 1 \/ order = 2)%Z ->
  get_light_curve l (Some A) (Some r) (Some t) (Some e) os order (Some false) ld = Err ValueError.
Proof. intros. cbn [get_light_curve]. unfold get_light_curve_checked. cbn [rbind]. rewrite (stencil_error _ _ H). reflexivity. Qed.
Lemma lc_bad_order_masked : forall l A n rs r N t e os order ld use inds, (os < 0)%Z \/ ~ (order = 0 \/ order = 1 \/ order = 2)%Z ->
  elements n r rs -> is_vector N t -> (forall r', planet_values n r' rs -> oa_in_transit A t r' (Some e) ld = Ok inds) -> (forall m, In m inds -> (m < N)%nat) ->
  get_light_curve l (Some A) (Some r) (Some t) (Some e) os order use ld = Err ValueError.
Proof.
  intros l A n rs r N t e os order ld use inds H Hr [Wt Et] Hi Hb. cbn [get_light_curve]. unfold get_light_curve_checked.
  destruct (match use with None => negb ld | Some u => u end); cbn [rbind].
  - rewrite (Hi _ (radii_flat n r rs Hr)). cbn [rmap rbind]. unfold agather. rewrite Et. cbn [last].
    replace (forallb (fun q => (q <? N)%nat) inds) with true by (symmetry; apply forallb_forall; intros q Hq; apply Nat.ltb_lt, Hb, Hq). cbn [rbind]. rewrite (stencil_error _ _ H). reflexivity.
  - rewrite (stencil_error _ _ H). reflexivity.
Qed.
Lemma lc_order_unused : forall l A r t os order os' order' use ld,
  get_light_curve l A r t None os order use ld = get_light_curve l A r t None os' order' use ld.
Proof. reflexivity. Qed.
Lemma lc_default : forall l A r t texp os order,
  get_light_curve l A r t texp os order None true = get_light_curve l A r t texp os order (Some false) true /\
  get_light_curve l A r t texp os order None false = get_light_curve l A r t texp os order (Some true) false.
Proof. split; reflexivity. Qed.
Lemma lc_forced : forall l r t texp os order,
  (forall k cp o, get_light_curve l (Some (kep_api k cp o)) (Some r) (Some t) texp os order (Some true) true = Err NotImpl) /\
  (forall k cp o, get_light_curve l (Some (ttv_api k cp o)) (Some r) (Some t) texp os order (Some true) true = Err NotImpl) /\
  (forall s, get_light_curve l (Some (simple_api s)) (Some r) (Some t) texp os order (Some true) true = Err NotImpl).
Proof. repeat split; reflexivity. Qed.
(** the simple orbit has no light delay at all *)
Lemma lc_simple_delay : forall l s r t os order, get_light_curve l (Some (simple_api s)) (Some r) (Some t) None os order None true = Err NotImpl.
Proof. reflexivity. Qed.

(** ** masking for the library's orbits *)
Lemma masked_kepler : forall u1 u2 k n (x : kargs tens) xs os o cp r rs N t ts e os' order,
  disk_flux u1 u2 <> 0 -> consts_ok k -> system k n x xs os -> kep_init k x = Ok o ->
  elements n r rs -> (forall j, (j < n)%nat -> 0 <= rs j) -> is_vector N t -> (forall m, (m < N)%nat -> aget t (at_time m) = Fin (ts m)) ->
  0 <= pad_of e -> (0 <= os')%Z -> (order = 0 \/ order = 1 \/ order = 2)%Z ->
  (forall j, (j < n)%nat -> ka_ecc (xs j) = None /\ o_r_star (os j) + rs j < o_a (os j) /\ 0 <= o_sin_incl (os j)) \/
  (exists al be, forall j, (j < n)%nat -> ka_ecc (xs j) <> None /\ transit_interval k (os j) (rs j) (al j) (be j) /\ solved cp (os j) (rs j) (al j) (be j) /\
     al j + pad_of e / 2 < o_period (os j) / 2 /\ be j + pad_of e / 2 < o_period (os j) / 2) \/
  (exists j, (j < n)%nat /\ o_ecc (os j) <> None /\ snd (solver_answer cp (os j) (rs j)) <> Fin 0) ->
  exists X Y f, get_light_curve (ld_init (Fin u1) (Fin u2)) (Some (kep_api k (lift_cp cp) o)) (Some r) (Some t) (one_texp e) os' order (Some true) false = Ok X /\
    get_light_curve (ld_init (Fin u1) (Fin u2)) (Some (kep_api k (lift_cp cp) o)) (Some r) (Some t) (one_texp e) os' order (Some false) false = Ok Y /\
    light_table n N X f /\ light_table n N Y f.
Proof.
  intros u1 u2 k n x xs os o cp r rs N t ts e os' order Hd kok sys Ho Hr Hr0 Ht Hts He Hos Hor G. destruct (kepler_answers k n x xs os o (lift_cp cp) kok sys Ho) as [HA Hs].
  apply (lc_masked u1 u2 _ false n (fun j s => pos k (os j) Relative s None false) (fun j => o_r_star (os j)) r rs N t ts (one_texp e) (fun _ => pad_of e)); try assumption.
  - intros j Hj. apply (ph_r_star _ (sy_phys _ _ _ _ _ sys j Hj)).
  - apply one_exp.
  - intros; exact He.
  - destruct G as [G|[(al & be & G)|(j & G1 & G2 & G3)]].
    + apply (finds_circ k n x xs os o cp rs N t ts e kok sys Ho He Ht Hts). intros j Hj. destruct (G j Hj) as (G1 & G2 & G3). split; [exact G1|]. split; [apply Hr0, Hj|]. split; assumption.
    + apply (finds_ecc k n x xs os o cp rs N t ts e al be kok sys Ho He Ht Hts G).
    + apply (finds_flag k n x xs os o cp rs N t ts e j kok sys Ho Ht Hts G1 G2 G3).
Qed.
Lemma masked_each : forall u1 u2 k (x : kargs tens) xs os o cp r rs N t ts es os' order,
  disk_flux u1 u2 <> 0 -> consts_ok k -> system k 1 x xs os -> kep_init k x = Ok o ->
  elements 1 r rs -> 0 <= rs 0%nat -> is_vector N t -> (forall m, (m < N)%nat -> aget t (at_time m) = Fin (ts m)) ->
  (forall m, (m < N)%nat -> 0 <= es m) -> (0 <= os')%Z -> (order = 0 \/ order = 1 \/ order = 2)%Z ->
  ka_ecc (xs 0%nat) = None -> o_r_star (os 0%nat) + rs 0%nat < o_a (os 0%nat) -> 0 <= o_sin_incl (os 0%nat) ->
  exists X Y f, get_light_curve (ld_init (Fin u1) (Fin u2)) (Some (kep_api k (lift_cp cp) o)) (Some r) (Some t) (Some (vector N es)) os' order (Some true) false = Ok X /\
    get_light_curve (ld_init (Fin u1) (Fin u2)) (Some (kep_api k (lift_cp cp) o)) (Some r) (Some t) (Some (vector N es)) os' order (Some false) false = Ok Y /\
    light_table 1 N X f /\ light_table 1 N Y f.
Proof.
  intros u1 u2 k x xs os o cp r rs N t ts es os' order Hd kok sys Ho Hr Hr0 Ht Hts He Hos Hor Ec G1 G2. destruct (kepler_answers k 1 x xs os o (lift_cp cp) kok sys Ho) as [HA Hs].
  apply (lc_masked u1 u2 _ false 1 (fun j s => pos k (os j) Relative s None false) (fun j => o_r_star (os j)) r rs N t ts (Some (vector N es)) es); try assumption.
  - intros j Hj. apply (ph_r_star _ (sy_phys _ _ _ _ _ sys j Hj)).
  - intros j Hj. replace j with O by lia. exact Hr0.
  - apply vector_exp.
  - apply (finds_each k x xs os o cp rs N t ts es kok sys Ho He Ht Hts Ec). split; [exact Hr0|split; assumption].
Qed.
Lemma masked_simple : forall u1 u2 n x xs r rs N t ts e os' order,
  disk_flux u1 u2 <> 0 -> simple_system n x xs -> (forall j, (j < n)%nat -> simple_ok (xs j)) ->
  elements n r rs -> is_vector N t -> (forall m, (m < N)%nat -> aget t (at_time m) = Fin (ts m)) ->
  0 <= pad_of e -> (0 <= os')%Z -> (order = 0 \/ order = 1 \/ order = 2)%Z ->
  (forall j, (j < n)%nat -> 0 <= rs j /\ Rabs (dflt 0 (sa_b (xs j))) < 1 + dflt 0 (sa_ror (xs j)) /\
     Rabs (dflt 0 (sa_b (xs j))) * dflt 1 (sa_r_star (xs j)) <> dflt 1 (sa_r_star (xs j)) + rs j) ->
  exists X Y f, get_light_curve (ld_init (Fin u1) (Fin u2)) (Some (simple_api (simple_init x))) (Some r) (Some t) (one_texp e) os' order (Some true) false = Ok X /\
    get_light_curve (ld_init (Fin u1) (Fin u2)) (Some (simple_api (simple_init x))) (Some r) (Some t) (one_texp e) os' order (Some false) false = Ok Y /\
    light_table n N X f /\ light_table n N Y f.
Proof.
  intros u1 u2 n x xs r rs N t ts e os' order Hd sys ok Hr Ht Hts He Hos Hor G. destruct (simple_answers n x xs sys ok) as [HA Hs].
  apply (lc_masked u1 u2 _ false n (fun j s => spos (xs j) s) (fun j => dflt 1 (sa_r_star (xs j))) r rs N t ts (one_texp e) (fun _ => pad_of e)); try assumption.
  - intros j Hj. apply (so_r_star _ (ok j Hj)).
  - intros j Hj. apply (G j Hj).
  - apply one_exp.
  - intros; exact He.
  - apply finds_simple; assumption.
Qed.
(** several planets, one exposure time per observation: the mask breaks *)
Lemma masked_vector_texp : forall l k n N (x : kargs tens) xs os r rs es t cp os' order,
  consts_ok k -> system k n x xs os -> elements n r rs -> is_vector N t ->
  (forall j, (j < n)%nat -> ka_ecc (xs j) = None) -> (2 <= n)%nat -> N <> n -> N <> 1%nat ->
  exists o, kep_init k x = Ok o /\ get_light_curve l (Some (kep_api k (lift_cp cp) o)) (Some r) (Some t) (Some (vector N es)) os' order None false = Err ShapeErr.
Proof.
  intros l k n N x xs os r rs es t cp os' order kok sys Hr Ht Ec Hn N1 N2.
  destruct (texp_shape_error k n N x xs os (areshape (rmap (fun s => [prod s]) (ash r)) r) rs es t cp kok sys (radii_flat n r rs Hr) Ht Ec Hn N1 N2) as (o & Ho & E). exists o. split; [exact Ho|].
  cbn [get_light_curve negb]. unfold get_light_curve_checked. cbn [oa_in_transit kep_api]. rewrite E. reflexivity.
Qed.
Lemma elements_vector n v : elements n (vector n v) v.
Proof.
  split; [exists [n]; split; [reflexivity|cbn; lia]|]. intros j Hj. unfold flat, vector. cbn [ash aget unlin cons_ix]. f_equal. f_equal. rewrite Nat.mod_small by exact Hj. destruct (Nat.eqb_spec n 1); lia.
Qed.
