(** * TTVOrbit between transits: light curves *)
From Coq Require Import Reals Lra Lia Psatz List Bool Arith ZArith Sorted.
From Coquelicot Require Import Coquelicot.
From Verif Require Import Num CoreOps Inst CoreFlux M_units M_kepler M_fin M_tensor M_ttv M_limbdark Spec_orbit Spec_params Spec_array Spec_light Spec_depth Spec_delay Spec_lip Spec_ttv Spec_cont Spec_sym Spec_ttvmove
  L_real L_kepop L_orbit L_motion L_pmotion L_pmotion4 L_pmotion5 L_ident L_cont L_lip2 L_lip3 L_light1 L_light4 L_ttv2 L_ttv3 L_ttv7 L_ttv8 L_params3 L_transit6 L_back2 L_mirror L_light7 L_cont3 L_cont4 L_ttvmove L_ttvmove2.
Import ListNotations.
Open Scope R_scope.

Section G.
Variables (G : R -> R) (C : R) (l : list R).
Hypothesis Lip : forall s t, Rabs (G s - G t) <= C * Rabs (s - t).
Hypothesis Meet : forall u v, consecutive l u v -> G ((v - u) / 2) = G (- ((v - u) / 2)).
Lemma chain d : forall i a b t t', nth_error l i = Some a -> nth_error l (i + d) = Some b -> t <= t' ->
  (forall w, (0 < d)%nat -> nth_error l (Datatypes.S i) = Some w -> t <= (a + w) / 2) -> (forall w, (0 < d)%nat -> nth_error l (i + d - 1) = Some w -> (w + b) / 2 <= t') ->
  StronglySorted Rlt l -> Rabs (G (t - a) - G (t' - b)) <= C * (t' - t).
Proof.
  induction d as [|d IH]; intros i a b t t' A B L H1 H2 So.
  - rewrite Nat.add_0_r in B. rewrite A in B. injection B as <-. assert (Q := Lip (t - a) (t' - a)). replace (t - a - (t' - a)) with (- (t' - t)) in Q by ring. rewrite Rabs_Ropp, (Rabs_pos_eq (t' - t)) in Q by lra. exact Q.
  - destruct (nth_error l (Datatypes.S i)) as [w|] eqn:W; [|apply nth_error_None in W; assert (Q : nth_error l (i + Datatypes.S d) <> None) by congruence; apply nth_error_Some in Q; lia].
    set (m := (a + w) / 2). assert (T1 : t <= m) by (apply H1; [lia|reflexivity]).
    assert (Cn : consecutive l a w) by (exists i; split; assumption). destruct (consec_gap _ _ _ So Cn) as (La & _).
    assert (E : G (m - a) = G (m - w)). { replace (m - a) with ((w - a) / 2) by (unfold m; field). replace (m - w) with (- ((w - a) / 2)) by (unfold m; field). apply Meet, Cn. }
    assert (Q1 := Lip (t - a) (m - a)). replace (t - a - (m - a)) with (- (m - t)) in Q1 by ring. rewrite Rabs_Ropp, (Rabs_pos_eq (m - t)) in Q1 by lra.
    assert (Mt : m <= t').
    { destruct d as [|d].
      - replace (i + 1)%nat with (Datatypes.S i) in B by lia. rewrite W in B. injection B as <-. apply (H2 a); [lia|]. replace (i + 1 - 1)%nat with i by lia. exact A.
      - destruct (nth_error l (i + Datatypes.S (Datatypes.S d) - 1)) as [y|] eqn:Y; [|apply nth_error_None in Y; assert (Q : nth_error l (i + Datatypes.S (Datatypes.S d)) <> None) by congruence; apply nth_error_Some in Q; lia].
        assert (H3 := H2 y ltac:(lia) eq_refl).
        assert (Cy : consecutive l y b). { exists (i + Datatypes.S (Datatypes.S d) - 1)%nat. split; [exact Y|]. replace (Datatypes.S (i + Datatypes.S (Datatypes.S d) - 1)) with (i + Datatypes.S (Datatypes.S d))%nat by lia. exact B. }
        destruct (consec_gap _ _ _ So Cy) as (Ly & _).
        assert (Wy : w <= y). { destruct d as [|d]; [replace (i + 2 - 1)%nat with (Datatypes.S i) in Y by lia; rewrite W in Y; injection Y as <-; lra|]. left. apply (sorted_nth l (Datatypes.S i) (i + Datatypes.S (Datatypes.S (Datatypes.S d)) - 1) w y So W Y); lia. }
        unfold m. lra. }
    assert (Q2 : Rabs (G (m - w) - G (t' - b)) <= C * (t' - m)).
    { apply (IH (Datatypes.S i) w b m t' W); [replace (Datatypes.S i + d)%nat with (i + Datatypes.S d)%nat by lia; exact B|exact Mt| | |exact So].
      - intros y Hd Y. assert (Cy : consecutive l w y) by (exists (Datatypes.S i); split; assumption). destruct (consec_gap _ _ _ So Cy) as (Ly & _). unfold m. lra.
      - intros y Hd Y. apply H2; [lia|]. replace (i + Datatypes.S d - 1)%nat with (Datatypes.S i + d - 1)%nat by lia. exact Y. }
    assert (T := Rabs_triang (G (t - a) - G (m - a)) (G (m - w) - G (t' - b))). rewrite <- E in *. replace (G (t - a) - G (m - a) + (G (m - a) - G (t' - b))) with (G (t - a) - G (t' - b)) in T by ring. nra.
Qed.
End G.

Section H.
Variables (G : R -> R) (C : R) (l : list R).
Hypothesis Lip : forall s t, Rabs (G s - G t) <= C * Rabs (s - t).
Hypothesis Meet : forall u v, consecutive l u v -> G ((v - u) / 2) = G (- ((v - u) / 2)).
Hypothesis So : StronglySorted Rlt l.
Lemma chain_le t t' a b : nearest l t a -> nearest l t' b -> t <= t' -> Rabs (G (t - a) - G (t' - b)) <= C * (t' - t).
Proof.
  intros Na Nb L. destruct (Rtotal_order a b) as [Lt|[E|Gt]].
  - destruct (In_nth_error l a (proj1 Na)) as [i Hi]. destruct (In_nth_error l b (proj1 Nb)) as [i' Hi'].
    assert (Ii : (i < i')%nat).
    { destruct (Nat.lt_trichotomy i i') as [H|[H|H]]; [exact H| |]; exfalso; [subst i'; rewrite Hi in Hi'; injection Hi' as ->; lra|]. assert (Q := sorted_nth l i' i b a So Hi' Hi H). lra. }
    apply (chain G C l Lip Meet (i' - i) i a b t t' Hi); [replace (i + (i' - i))%nat with i' by lia; exact Hi'|exact L| | |exact So].
    + intros w _ W. assert (Cw : consecutive l a w) by (exists i; split; assumption). destruct (consec_gap _ _ _ So Cw) as (Lw & _ & Iw & _).
      destruct Na as [_ Na]. destruct (Na w Iw) as [Q _]. destruct (Rle_lt_dec t ((a + w) / 2)) as [K|K]; [exact K|exfalso]. rewrite (Rabs_pos_eq (t - a)) in Q by lra. unfold Rabs in Q. destruct (Rcase_abs (t - w)); lra.
    + intros w _ W. replace (i + (i' - i) - 1)%nat with (i' - 1)%nat in W by lia.
      assert (Cw : consecutive l w b) by (exists (i' - 1)%nat; split; [exact W|replace (Datatypes.S (i' - 1)) with i' by lia; exact Hi']). destruct (consec_gap _ _ _ So Cw) as (Lw & Iw & _ & _).
      destruct Nb as [_ Nb]. destruct (Nb w Iw) as [Q _]. destruct (Rle_lt_dec ((w + b) / 2) t') as [K|K]; [exact K|exfalso]. rewrite (Rabs_left1 (t' - b)) in Q by lra. unfold Rabs in Q. destruct (Rcase_abs (t' - w)); lra.
  - subst b. assert (Q := Lip (t - a) (t' - a)). replace (t - a - (t' - a)) with (- (t' - t)) in Q by ring. rewrite Rabs_Ropp, (Rabs_pos_eq (t' - t)) in Q by lra. exact Q.
  - assert (Q := nearest_order l t' t b a Nb Na Gt). assert (t' = t) by lra. subst t'. rewrite (nearest_unique l t a b Na Nb) in Gt. lra.
Qed.
Lemma chain_lip t t' a b : nearest l t a -> nearest l t' b -> Rabs (G (t - a) - G (t' - b)) <= C * Rabs (t - t').
Proof.
  intros Na Nb. destruct (Rle_lt_dec t t') as [H|H].
  - rewrite (Rabs_minus_sym t t'), (Rabs_pos_eq (t' - t)) by lra. apply chain_le; assumption.
  - rewrite (Rabs_minus_sym (G _)), (Rabs_pos_eq (t - t')) by lra. apply chain_le; [assumption|assumption|lra].
Qed.
End H.

Lemma ttv_light_steady : forall u1 u2 k n o os tts cp r rs N t ts t' ts' texp es osam order,
  disk_flux u1 u2 <> 0 -> consts_ok k -> ttv_system k n o os tts ->
  elements n r rs -> (forall j, (j < n)%nat -> 0 <= rs j /\ o_r_star (os j) + rs j <= o_a (os j) * (1 - ecc_of (os j))) ->
  (forall j u v, (j < n)%nat -> consecutive (tts j) u v -> meets u1 u2 k (os j) (rs j) (v - u)) ->
  is_vector N t -> (forall m, (m < N)%nat -> aget t (at_time m) = Fin (ts m)) ->
  is_vector N t' -> (forall m, (m < N)%nat -> aget t' (at_time m) = Fin (ts' m)) ->
  opt_exposures N texp es -> (texp <> None -> exists nodes weights, stencil osam order = Ok (nodes, weights)) ->
  close_tables n N (get_light_curve (ld_init (Fin u1) (Fin u2)) (Some (ttv_api k cp o)) (Some r) (Some t) texp osam order (Some false) false)
    (get_light_curve (ld_init (Fin u1) (Fin u2)) (Some (ttv_api k cp o)) (Some r) (Some t') texp osam order (Some false) false)
    (fun m j => weight u1 u2 * (4 * (rs j / o_r_star (os j)) * (peak_speed (os j) / o_r_star (os j))) * Rabs (ts m - ts' m)).
Proof.
  intros u1 u2 k n o os tts cp r rs N t ts t' ts' texp es osam order Hd kok sys Hr Hout Hm Ht Hts Ht' Hts' He Hst.
  destruct (near_exists k n o os tts sys) as [near Hn]. destruct (ttv_answers k n o os tts near kok sys Hn cp) as [HA Hs].
  apply (curves_close u1 u2 _ false n _ _ r rs r rs N t ts t' ts' texp es osam order _ Hd HA Hs); try assumption.
  - intros j Hj. destruct (under_j k n o os tts sys j Hj) as (x & Hi & Hp). apply (ph_r_star _ Hp).
  - intros m j y Hmm Hj. destruct (Hout j Hj) as [R0 Q]. destruct (under_j k n o os tts sys j Hj) as (x & Hi & Hp). assert (Rs := ph_r_star _ Hp).
    set (G := fun s => flux_at u1 u2 (pos k (os j) Relative (o_t0 (os j) + s) None false) (rs j) (o_r_star (os j))).
    set (C := weight u1 u2 * (4 * (rs j / o_r_star (os j)) * (peak_speed (os j) / o_r_star (os j)))).
    assert (Lp : forall s s', Rabs (G s - G s') <= C * Rabs (s - s')).
    { intros s s'. assert (K := kepler_steady k x (os j) kok Hi Hp u1 u2 (rs j) (o_t0 (os j) + s) (o_t0 (os j) + s') Hd R0 Q). replace (o_t0 (os j) + s - (o_t0 (os j) + s')) with (s - s') in K by ring. exact K. }
    assert (Mt : forall u v, consecutive (tts j) u v -> G ((v - u) / 2) = G (- ((v - u) / 2))) by (intros u v Cv; apply (Hm j u v Hj Cv)).
    assert (K := chain_lip G C (tts j) Lp Mt (tv_inc _ _ _ _ _ sys j Hj) (ts m + y) (ts' m + y) _ _ (Hn j (ts m + y) Hj) (Hn j (ts' m + y) Hj)).
    replace (ts m + y - (ts' m + y)) with (ts m - ts' m) in K by ring. exact K.
Qed.

(** where the two sides meet *)
Lemma meets_circular k x o u1 u2 r d : consts_ok k -> kep_init k x = Ok o -> physical o -> o_ecc o = None -> meets u1 u2 k o r d.
Proof.
  intros kok Hi Hp E. unfold meets. destruct (circular_motion k x o 0 kok Hi Hp E (d / 2)) as (A & _). cbv zeta in A. specialize (A Relative None).
  rewrite Rmult_0_l, Rplus_0_r in A. rewrite A, across_flux. reflexivity.
Qed.
Lemma meets_whole k x o u1 u2 r d : consts_ok k -> kep_init k x = Ok o -> physical o -> whole d (o_period o) -> meets u1 u2 k o r d.
Proof.
  intros kok Hi Hp (z & E). unfold meets. destruct (periodic_motion k x o (o_t0 o - d / 2) z None false None None kok Hi Hp) as (A & _). cbv zeta in A. destruct (A Relative) as [A' _].
  rewrite <- A'. do 2 f_equal. rewrite <- E. field.
Qed.
Lemma meets_out k x o u1 u2 r d : disk_flux u1 u2 <> 0 -> kep_init k x = Ok o -> physical o -> 0 <= r -> ~ transits k o r (o_t0 o + d / 2) -> ~ transits k o r (o_t0 o - d / 2) -> meets u1 u2 k o r d.
Proof.
  intros Hd Hi Hp Hr A B. unfold meets. assert (Rs := ph_r_star _ Hp). rewrite !(not_overlap u1 u2); try assumption; [reflexivity| |]; intro Q; [apply B|apply A]; destruct Q as [Q1 Q2]; (split; [exact Q1|left; exact Q2]).
Qed.

Lemma light_same n N X f g : light_table n N X f -> light_table n N X g -> forall m j, (m < N)%nat -> (j < n)%nat -> f m j = g m j.
Proof. intros (_ & A) (_ & B) m j Hm Hj. specialize (A m j Hm Hj). specialize (B m j Hm Hj). congruence. Qed.
Lemma ttv_light_only : forall u1 u2 k n o os tts cp r rs osam order j u v,
  disk_flux u1 u2 <> 0 -> consts_ok k -> ttv_system k n o os tts ->
  elements n r rs -> (j < n)%nat -> 0 <= rs j /\ o_r_star (os j) + rs j <= o_a (os j) * (1 - ecc_of (os j)) -> consecutive (tts j) u v ->
  (forall ts, Un_cv ts ((u + v) / 2) ->
     tables_tend n 1 (fun q => get_light_curve (ld_init (Fin u1) (Fin u2)) (Some (ttv_api k cp o)) (Some r) (Some (vector 1 (fun _ => ts q))) None osam order (Some false) false)
       (get_light_curve (ld_init (Fin u1) (Fin u2)) (Some (ttv_api k cp o)) (Some r) (Some (vector 1 (fun _ => (u + v) / 2))) None osam order (Some false) false)) ->
  meets u1 u2 k (os j) (rs j) (v - u).
Proof.
  intros u1 u2 k n o os tts cp r rs osam order j u v Hd kok sys Hr Hj [R0 Q] Cn H. set (m := (u + v) / 2) in *. assert (So := tv_inc _ _ _ _ _ sys j Hj). destruct (consec_gap _ _ _ So Cn) as (L & _).
  destruct (near_exists k n o os tts sys) as [near Hn]. destruct (under_j k n o os tts sys j Hj) as (x & Hi & Hp).
  assert (Cv := approach m). destruct (H _ Cv) as (fs & f & A & (Y & EY & TY) & T). specialize (T 0%nat j ltac:(lia) Hj).
  assert (LC : forall s, exists X, get_light_curve (ld_init (Fin u1) (Fin u2)) (Some (ttv_api k cp o)) (Some r) (Some (vector 1 (fun _ => s))) None osam order (Some false) false = Ok X /\
    light_table n 1 X (fun _ j => flux_at u1 u2 (pos k (os j) Relative (orbit_time os near j s) None false) (rs j) (o_r_star (os j)))).
  { intro s. apply (lc_ttv u1 u2 k n o os tts near cp r rs 1 (vector 1 (fun _ => s)) (fun _ => s) osam order Hd kok sys Hn Hr (vector_is _ _)). intros i Hi'. apply (vector_at 1 (fun _ => s) i Hi'). }
  set (G := fun s => flux_at u1 u2 (pos k (os j) Relative (o_t0 (os j) + s) None false) (rs j) (o_r_star (os j))).
  assert (Ef : f 0%nat j = G ((v - u) / 2)).
  { destruct (LC m) as (X & EX & TX). rewrite EY in EX. injection EX as <-. rewrite (light_same _ _ _ _ _ TY TX 0%nat j ltac:(lia) Hj). unfold G, orbit_time.
    rewrite (nearest_unique (tts j) m (near j m) u (Hn j m Hj)) by (apply (mid_left _ u v _ So Cn); unfold m; lra). do 3 f_equal. unfold m. field. }
  destruct (eventually_near _ _ ((v - u) / 2) Cv ltac:(lra)) as [N HN].
  assert (Es : forall q, (N <= q)%nat -> G ((m - v) + / (INR q + 1)) = fs q 0%nat j).
  { intros q Hq. specialize (HN q Hq). cbv beta in HN. apply Rabs_def2 in HN. assert (Iq : 0 < / (INR q + 1)) by (apply Rinv_0_lt_compat; generalize (pos_INR q); lra).
    destruct (A q) as (X' & EX' & TX'). destruct (LC (m + / (INR q + 1))) as (X & EX & TX). rewrite EX' in EX. injection EX as <-. rewrite (light_same _ _ _ _ _ TX' TX 0%nat j ltac:(lia) Hj). unfold G, orbit_time.
    rewrite (nearest_unique (tts j) (m + / (INR q + 1)) (near j (m + / (INR q + 1))) v (Hn j _ Hj)) by (apply (mid_right _ u v _ So Cn); unfold m in *; lra). do 3 f_equal. ring. }
  assert (Lp : forall s s', Rabs (G s - G s') <= weight u1 u2 * (4 * (rs j / o_r_star (os j)) * (peak_speed (os j) / o_r_star (os j))) * Rabs (s - s')).
  { intros s s'. assert (K := kepler_steady k x (os j) kok Hi Hp u1 u2 (rs j) (o_t0 (os j) + s) (o_t0 (os j) + s') Hd R0 Q). replace (o_t0 (os j) + s - (o_t0 (os j) + s')) with (s - s') in K by ring. exact K. }
  set (C := weight u1 u2 * _) in Lp.
  assert (T2 : Un_cv (fun q => G ((m - v) + / (INR q + 1))) (G (m - v))).
  { apply (Un_cv_squeeze _ _ (fun q => C * / (INR q + 1))).
    - intro q. assert (K := Lp (m - v + / (INR q + 1)) (m - v)). replace (m - v + / (INR q + 1) - (m - v)) with (/ (INR q + 1)) in K by ring. rewrite (Rabs_pos_eq (/ _)) in K by (left; apply Rinv_0_lt_compat; generalize (pos_INR q); lra). exact K.
    - replace 0 with (C * 0) by ring. apply CV_mult; [apply cv_const|]. assert (Z0 := approach 0). apply (cv_ext (fun q => 0 + / (INR q + 1))); [intro; ring|exact Z0]. }
  assert (T3 : Un_cv (fun q => fs q 0%nat j) (G (m - v))) by (apply (cv_late _ _ _ N Es T2)).
  assert (E := UL_sequence _ _ _ T T3). rewrite Ef in E. unfold meets. unfold G in E. rewrite E. do 2 f_equal. unfold m. field.
Qed.

(** ** statements *)
Lemma move_known : forall k n o os tts, consts_ok k -> ttv_system k n o os tts -> exists X V, ttv_motion k n o X V.
Proof. intros k n o os tts kok sys. exact (motion_known k n o os tts kok sys). Qed.
Lemma move_rigid : forall k n o os tts X V b j t c, consts_ok k -> ttv_system k n o os tts -> ttv_motion k n o X V -> (j < n)%nat -> nearest (tts j) t c ->
  X b j t = pos k (os j) b (o_t0 (os j) + (t - c)) None false /\ V b j t = vel (os j) b (o_t0 (os j) + (t - c)).
Proof. intros k n o os tts X V b j t c kok sys HM Hj H. exact (motion_at k n o os tts kok sys X V HM b j t c Hj H). Qed.
Lemma move_velocity : forall k n o os tts X V b j t, consts_ok k -> ttv_system k n o os tts -> ttv_motion k n o X V -> (j < n)%nat ->
  (forall u v, consecutive (tts j) u v -> t = (u + v) / 2 -> whole (v - u) (o_period (os j))) -> vderive (X b j) t (V b j t).
Proof. intros k n o os tts X V b j t kok sys HM Hj H. exact (ttv_velocity k n o os tts kok sys X V HM b j t Hj H). Qed.
Lemma move_jump : forall k n o os tts X V b j u v, consts_ok k -> ttv_system k n o os tts -> ttv_motion k n o X V -> (j < n)%nat -> consecutive (tts j) u v ->
  let m := (u + v) / 2 in
  X b j m = pos k (os j) b (o_t0 (os j) + (v - u) / 2) None false /\ V b j m = vel (os j) b (o_t0 (os j) + (v - u) / 2) /\
  (forall ts, Un_cv ts m -> (forall q, ts q <= m) -> vec_tends (fun q => X b j (ts q)) (X b j m)) /\
  (forall ts, Un_cv ts m -> (forall q, m < ts q) -> vec_tends (fun q => X b j (ts q)) (pos k (os j) b (o_t0 (os j) - (v - u) / 2) None false)).
Proof. intros k n o os tts X V b j u v kok sys HM Hj C. exact (mid_sides k n o os tts kok sys X V HM b j u v Hj C). Qed.
Lemma move_continuous : forall k n o os tts X V j u v, consts_ok k -> ttv_system k n o os tts -> ttv_motion k n o X V -> (j < n)%nat -> consecutive (tts j) u v ->
  (continuous_at (X Relative j) ((u + v) / 2) <-> whole (v - u) (o_period (os j))).
Proof. intros k n o os tts X V j u v kok sys HM Hj C. exact (steady_iff k n o os tts kok sys X V HM j u v Hj C). Qed.
Lemma move_ends : forall k n o os tts X V b j t (q : nat), consts_ok k -> ttv_system k n o os tts -> ttv_motion k n o X V -> (j < n)%nat ->
  ((forall v, In v (tts j) -> t <= v) -> X b j (t - INR q * o_period (os j)) = X b j t /\ V b j (t - INR q * o_period (os j)) = V b j t) /\
  ((forall v, In v (tts j) -> v <= t) -> X b j (t + INR q * o_period (os j)) = X b j t /\ V b j (t + INR q * o_period (os j)) = V b j t).
Proof. intros k n o os tts X V b j t q kok sys HM Hj. exact (ends k n o os tts kok sys X V HM b j t q Hj). Qed.
Lemma meets_when : forall k n o os tts u1 u2 j r d, consts_ok k -> ttv_system k n o os tts -> disk_flux u1 u2 <> 0 -> (j < n)%nat -> 0 <= r ->
  o_ecc (os j) = None \/ whole d (o_period (os j)) \/ (~ transits k (os j) r (o_t0 (os j) + d / 2) /\ ~ transits k (os j) r (o_t0 (os j) - d / 2)) ->
  meets u1 u2 k (os j) r d.
Proof.
  intros k n o os tts u1 u2 j r d kok sys Hd Hj Hr H. destruct (under_j k n o os tts sys j Hj) as (x & Hi & Hp). destruct H as [H|[H|[A B]]].
  - exact (meets_circular k x (os j) u1 u2 r d kok Hi Hp H).
  - exact (meets_whole k x (os j) u1 u2 r d kok Hi Hp H).
  - exact (meets_out k x (os j) u1 u2 r d Hd Hi Hp Hr A B).
Qed.
