(** * TTVOrbit: exposures, masks and light curves *)
From Coq Require Import Reals List Bool Arith ZArith Lra Lia Psatz Sorted String.
From Verif Require Import Num CoreOps Inst CoreFlux M_units M_kepler M_kwargs M_fin M_tensor M_ttv M_limbdark Spec_orbit Spec_params Spec_array Spec_ttv Spec_light
  L_real L_orbit L_fl L_fl2 L_fl3 L_fl4 L_tens L_shape L_shapeS L_params3 L_params4 L_transit L_transit2 L_transit3 L_transit4 L_array L_ptransit L_light1 L_light2 L_light3 L_light4 L_light7 L_light8
  L_ttv1 L_ttv2 L_ttv3 L_ttv7.
Import ListNotations.
Open Scope R_scope.
Local Notation length := List.length.

(** closest points on the two sides of a midpoint *)
Lemma nearest_mid l s t a b : nearest l s a -> nearest l t b -> a < b -> s <= (a + b) / 2 <= t.
Proof.
  intros [Ia Na] [Ib Nb] H. destruct (Na b Ib) as [A _]. destruct (Nb a Ia) as [B _].
  unfold Rabs in A, B. destruct (Rcase_abs (s - a)), (Rcase_abs (s - b)), (Rcase_abs (t - a)), (Rcase_abs (t - b)); lra.
Qed.
Lemma nearest_order l s t a b : nearest l s a -> nearest l t b -> a < b -> s <= t.
Proof. intros H1 H2 H3. assert (Q := nearest_mid l s t a b H1 H2 H3). lra. Qed.
(** mirrored at the midpoint *)
Lemma mirror l s t a b T : nearest l s a -> nearest l t b -> Rabs (s - t) <= T -> a <> b -> Rabs ((a + b - s) - t) <= T.
Proof.
  intros H1 H2 H3 H4. apply Rabs_le_between in H3. destruct (Rtotal_order a b) as [H|[H|H]]; [|contradiction|].
  - assert (Q := nearest_mid l s t a b H1 H2 H). apply Rabs_le. lra.
  - assert (Q := nearest_mid l t s b a H2 H1 H). apply Rabs_le. lra.
Qed.

(** neighbours *)
Lemma sorted_nth l i j u v : StronglySorted Rlt l -> nth_error l i = Some u -> nth_error l j = Some v -> (i < j)%nat -> u < v.
Proof.
  intro S. revert i j. induction S as [|x l S IH F]; intros i j Hi Hj Hij; [destruct i; discriminate Hi|].
  destruct j as [|j]; [lia|]. cbn in Hj. destruct i as [|i]; cbn in Hi.
  - injection Hi as <-. rewrite List.Forall_forall in F. apply F. eapply nth_error_In; eassumption.
  - apply (IH i j); [assumption|assumption|lia].
Qed.
Lemma next_after l a b : StronglySorted Rlt l -> In a l -> In b l -> a < b -> exists v, consecutive l a v /\ In v l /\ v <= b.
Proof.
  intros S Ia Ib H. apply In_nth_error in Ia. apply In_nth_error in Ib. destruct Ia as [i Hi]. destruct Ib as [j Hj].
  assert (Hij : (i < j)%nat).
  { destruct (lt_eq_lt_dec i j) as [[L|L]|L]; [exact L| |].
    - subst. rewrite Hi in Hj. injection Hj as ->. lra.
    - assert (Q := sorted_nth l j i b a S Hj Hi L). lra. }
  destruct (nth_error l (Datatypes.S i)) as [v|] eqn:E.
  - exists v. split; [exists i; auto|]. split; [eapply nth_error_In; eassumption|].
    destruct (Nat.eq_dec (Datatypes.S i) j) as [Q|Q]; [subst; rewrite E in Hj; injection Hj as ->; lra|].
    assert (Q' := sorted_nth l _ j v b S E Hj ltac:(lia)). lra.
  - apply nth_error_None in E. assert (Q : (j < length l)%nat) by (apply nth_error_Some; congruence). lia.
Qed.
Lemma next_before l a b : StronglySorted Rlt l -> In a l -> In b l -> b < a -> exists v, consecutive l v a /\ In v l /\ b <= v.
Proof.
  intros S Ia Ib H. apply In_nth_error in Ia. apply In_nth_error in Ib. destruct Ia as [i Hi]. destruct Ib as [j Hj].
  assert (Hij : (j < i)%nat).
  { destruct (lt_eq_lt_dec j i) as [[L|L]|L]; [exact L| |].
    - subst. rewrite Hi in Hj. injection Hj as ->. lra.
    - assert (Q := sorted_nth l i j a b S Hi Hj L). lra. }
  destruct i as [|i]; [lia|]. destruct (nth_error l i) as [v|] eqn:E.
  - exists v. split; [exists i; auto|]. split; [eapply nth_error_In; eassumption|].
    destruct (Nat.eq_dec i j) as [Q|Q]; [subst; rewrite E in Hj; injection Hj as ->; lra|].
    assert (Q' := sorted_nth l j i b v S Hj E ltac:(lia)). lra.
  - apply nth_error_None in E. assert (Q : (Datatypes.S i < length l)%nat) by (apply nth_error_Some; congruence). lia.
Qed.

(** windows well separated: an exposure that reaches a window is assigned to
    the same transit *)
Lemma same_transit l s t a b e al be P (q : Z) : StronglySorted Rlt l -> nearest l s a -> nearest l t b -> Rabs (s - t) <= e / 2 ->
  0 < P -> 0 <= al -> 0 <= be -> 0 <= e ->
  (forall u v, consecutive l u v -> 2 * al + e < v - u /\ 2 * be + e < v - u /\ v - u < 2 * (P - al) /\ v - u < 2 * (P - be)) ->
  IZR q * P - al <= s - a <= IZR q * P + be -> a = b.
Proof.
  intros S N1 N2 Hst HP Ha Hb He Sep W. apply Rabs_le_between in Hst.
  assert (Zq : (q <= 0 \/ 1 <= q)%Z) by lia. assert (Zq' : (0 <= q \/ q <= -1)%Z) by lia.
  destruct (Rtotal_order a b) as [H|[H|H]]; [|exact H|]; exfalso.
  - destruct (next_after l a b S (proj1 N1) (proj1 N2) H) as (v & C & Iv & Hv). destruct (Sep _ _ C) as (S1 & S2 & S3 & S4).
    assert (M := nearest_mid l s t a b N1 N2 H). assert (av : a < v) by lra.
    destruct N1 as [_ N1]. destruct (N1 v Iv) as [Q _]. assert (s <= (a + v) / 2).
    { unfold Rabs in Q. destruct (Rcase_abs (s - a)), (Rcase_abs (s - v)); lra. }
    destruct Zq as [Z|Z]; apply IZR_le in Z; nra.
  - destruct (next_before l a b S (proj1 N1) (proj1 N2) H) as (v & C & Iv & Hv). destruct (Sep _ _ C) as (S1 & S2 & S3 & S4).
    assert (M := nearest_mid l t s b a N2 N1 H). assert (av : v < a) by lra.
    destruct N1 as [_ N1]. destruct (N1 v Iv) as [Q _]. assert ((a + v) / 2 <= s).
    { unfold Rabs in Q. destruct (Rcase_abs (s - a)), (Rcase_abs (s - v)); lra. }
    destruct Zq' as [Z|Z]; apply IZR_le in Z; nra.
Qed.

(** a circular orbit is symmetric about its transits *)
Lemma transits_even k x o r d : consts_ok k -> kep_init k x = Ok o -> physical o -> o_ecc o = None -> 0 <= r ->
  o_r_star o + r < o_a o -> 0 <= o_sin_incl o -> transits k o r (o_t0 o + d) -> transits k o r (o_t0 o + - d).
Proof.
  intros kok H ph ci Hr Ha Hi T. apply (transits_circ k kok x o H ph ci r Hr) in T. apply (transits_circ k kok x o H ph ci r Hr).
  cbv zeta in *. assert (P := ph_period _ ph).
  replace (2 * PI * (o_t0 o + - d - o_t0 o) / o_period o) with (- (2 * PI * (o_t0 o + d - o_t0 o) / o_period o)) by (field; lra).
  rewrite cos_neg, sin_neg. set (th := 2 * PI * (o_t0 o + d - o_t0 o) / o_period o) in *. destruct T as [T1 T2]. split; [exact T1|].
  replace (- sin th * - sin th) with (sin th * sin th) by ring. exact T2.
Qed.

Section T.
Variables (k : consts) (n : nat) (o : ttvorbit) (os : nat -> orbit R) (tts : nat -> list R) (near : nat -> R -> R).
Hypothesis kok : consts_ok k.
Hypothesis sys : ttv_system k n o os tts.
Hypothesis Hnear : nearest_transits n tts near.
Variables (N : nat) (rs : nat -> R) (t : tens) (ts : nat -> R) (e : option R).
Variable cp : fl -> fl -> fl -> fl -> fl -> fl -> fl -> fl * fl * fl.
Hypothesis Ht : is_vector N t.
Hypothesis Hts : forall m, (m < N)%nat -> aget t (at_time m) = Fin (ts m).
Hypothesis Hpos : 0 <= pad_of e.

Notation A := (ttv_api k (lift_cp cp) o).
Notation P := (fun j s => pos k (os j) Relative (orbit_time os near j s) None false).

Lemma tfinds_circ :
  (forall j, (j < n)%nat -> o_ecc (os j) = None /\ 0 <= rs j /\ o_r_star (os j) + rs j < o_a (os j) /\ 0 <= o_sin_incl (os j)) ->
  finds_transits A false n P (fun j => o_r_star (os j)) rs N t ts (one_texp e) (fun _ => pad_of e).
Proof.
  intros G r Hr. destruct (under k n o os tts sys) as (x & xs & Hx & Sy).
  destruct (ttv_in_circ k n o os tts near kok sys Hnear N r rs (one_texp e) (fun _ => pad_of e) t ts cp Hr (one_opt n e) (fun _ _ => Hpos) Ht Hts G) as (l & E & _ & Il).
  exists l. split; [exact E|]. split; [intros m Hm; apply Il, Hm|]. intros m j s Hm Hj Hs Ov. apply Il. split; [exact Hm|].
  apply overlaps_transits in Ov. unfold orbit_time in Ov. destruct (Req_dec (near j s) (near j (ts m))) as [Q|Q].
  - exists j, s. split; [exact Hj|]. split; [exact Hs|]. rewrite <- Q. exact Ov.
  - exists j, (near j s + near j (ts m) - s). split; [exact Hj|].
    split; [apply (mirror (tts j)); [apply Hnear, Hj|apply Hnear, Hj|exact Hs|exact Q]|].
    destruct (G j Hj) as (G1 & G2 & G3 & G4).
    replace (near j s + near j (ts m) - s - near j (ts m)) with (- (s - near j s)) by ring.
    apply (transits_even k (xs j) (os j) (rs j) (s - near j s) kok (sy_init _ _ _ _ _ Sy j Hj) (sy_phys _ _ _ _ _ Sy j Hj) G1 G2 G3 G4 Ov).
Qed.

Lemma tfinds_ecc (al be : nat -> R) :
  (forall j, (j < n)%nat -> o_ecc (os j) <> None /\ transit_interval k (os j) (rs j) (al j) (be j) /\ solved cp (os j) (rs j) (al j) (be j) /\
     al j + pad_of e / 2 < o_period (os j) / 2 /\ be j + pad_of e / 2 < o_period (os j) / 2) ->
  pad_of e = 0 \/ (forall j u v, (j < n)%nat -> consecutive (tts j) u v ->
     2 * al j + pad_of e < v - u /\ 2 * be j + pad_of e < v - u /\ v - u < 2 * (o_period (os j) - al j) /\ v - u < 2 * (o_period (os j) - be j)) ->
  finds_transits A false n P (fun j => o_r_star (os j)) rs N t ts (one_texp e) (fun _ => pad_of e).
Proof.
  intros G Sep r Hr. destruct (under k n o os tts sys) as (x & xs & Hx & Sy).
  destruct (ttv_in_ecc k n o os tts near kok sys Hnear N r rs (one_texp e) (fun _ => pad_of e) t ts cp Hr (one_opt n e) (fun _ _ => Hpos) Ht Hts al be G) as (l & E & _ & Il).
  exists l. split; [exact E|]. split; [intros m Hm; apply Il, Hm|]. intros m j s Hm Hj Hs Ov. apply Il. split; [exact Hm|].
  apply overlaps_transits in Ov. unfold orbit_time in Ov. exists j, s. split; [exact Hj|]. split; [exact Hs|].
  replace (near j (ts m)) with (near j s); [exact Ov|]. destruct Sep as [Z|Sep].
  - cbv beta in Hs. rewrite Z in Hs. replace (0 / 2) with 0 in Hs by lra. assert (s = ts m) by (apply Rabs_le_between in Hs; lra). subst. reflexivity.
  - destruct (G j Hj) as (G1 & (Ga & Gb & GT) & _). apply GT in Ov. destruct Ov as (q & Q).
    apply (same_transit (tts j) s (ts m) (near j s) (near j (ts m)) (pad_of e) (al j) (be j) (o_period (os j)) q);
      [apply (tv_inc _ _ _ _ _ sys j Hj)|apply Hnear, Hj|apply Hnear, Hj|exact Hs|apply (ph_period _ (sy_phys _ _ _ _ _ Sy j Hj))|exact Ga|exact Gb|exact Hpos| |lra].
    intros u v C. apply (Sep j u v Hj C).
Qed.
Lemma tfinds_flag j0 : (j0 < n)%nat -> o_ecc (os j0) <> None -> snd (solver_answer cp (os j0) (rs j0)) <> Fin 0 ->
  finds_transits A false n P (fun j => o_r_star (os j)) rs N t ts (one_texp e) (fun _ => pad_of e).
Proof.
  intros Hj He0 Hf r Hr.
  assert (El := ttv_in_flag k n o os tts kok sys N r rs (one_texp e) (fun _ => pad_of e) t ts cp Hr (one_opt n e) Ht Hts j0 Hj He0 Hf).
  exists (seq 0 N). split; [exact El|]. split; [intros m Hm; apply in_seq in Hm; lia|].
  intros m j s Hm _ _ _. apply in_seq. lia.
Qed.
End T.

Lemma near_exists k n o os tts : ttv_system k n o os tts -> exists near, nearest_transits n tts near.
Proof.
  intro sys. exists (fun j u => match look o j (Fin u) with Fin v => v | _ => 0 end). intros j u Hj.
  destruct (look_ok k n o os tts sys j u Hj) as (v & -> & H). exact H.
Qed.

(** ** light curves *)
Lemma lc_ttv : forall u1 u2 k n o os tts near cp r rs N t ts os' order,
  disk_flux u1 u2 <> 0 -> consts_ok k -> ttv_system k n o os tts -> nearest_transits n tts near ->
  elements n r rs -> is_vector N t -> (forall m, (m < N)%nat -> aget t (at_time m) = Fin (ts m)) ->
  exists X, get_light_curve (ld_init (Fin u1) (Fin u2)) (Some (ttv_api k cp o)) (Some r) (Some t) None os' order (Some false) false = Ok X /\
    light_table n N X (fun m j => flux_at u1 u2 (pos k (os j) Relative (orbit_time os near j (ts m)) None false) (rs j) (o_r_star (os j))).
Proof.
  intros u1 u2 k n o os tts near cp r rs N t ts os' order Hd kok sys Hn Hr Ht Hts. destruct (ttv_answers k n o os tts near kok sys Hn cp) as [HA Hs].
  apply (lc_plain u1 u2 (ttv_api k cp o) false n (fun j s => pos k (os j) Relative (orbit_time os near j s) None false) (fun j => o_r_star (os j))); try assumption.
  intros j Hj. destruct (under k n o os tts sys) as (x & xs & Hx & Sy). assert (P := ph_r_star _ (sy_phys _ _ _ _ _ Sy j Hj)). lra.
Qed.
Lemma lc_ttv_exposed : forall u1 u2 k n o os tts near cp r rs N t ts e es os' order nodes weights,
  disk_flux u1 u2 <> 0 -> consts_ok k -> ttv_system k n o os tts -> nearest_transits n tts near ->
  elements n r rs -> is_vector N t -> (forall m, (m < N)%nat -> aget t (at_time m) = Fin (ts m)) ->
  exposures N e es -> stencil os' order = Ok (nodes, weights) ->
  exists X, get_light_curve (ld_init (Fin u1) (Fin u2)) (Some (ttv_api k cp o)) (Some r) (Some t) (Some e) os' order (Some false) false = Ok X /\
    light_table n N X (fun m j => node_mean nodes weights (fun s => flux_at u1 u2 (pos k (os j) Relative (orbit_time os near j s) None false) (rs j) (o_r_star (os j))) (ts m) (es m)).
Proof.
  intros u1 u2 k n o os tts near cp r rs N t ts e es os' order nodes weights Hd kok sys Hn Hr Ht Hts He Hst. destruct (ttv_answers k n o os tts near kok sys Hn cp) as [HA Hs].
  apply (lc_exposed u1 u2 (ttv_api k cp o) false n (fun j s => pos k (os j) Relative (orbit_time os near j s) None false) (fun j => o_r_star (os j)) r rs N t ts e es os' order nodes weights); try assumption.
  intros j Hj. destruct (under k n o os tts sys) as (x & xs & Hx & Sy). assert (P := ph_r_star _ (sy_phys _ _ _ _ _ Sy j Hj)). lra.
Qed.
Lemma masked_ttv : forall u1 u2 k n o os tts cp r rs N t ts e os' order,
  disk_flux u1 u2 <> 0 -> consts_ok k -> ttv_system k n o os tts ->
  elements n r rs -> (forall j, (j < n)%nat -> 0 <= rs j) -> is_vector N t -> (forall m, (m < N)%nat -> aget t (at_time m) = Fin (ts m)) ->
  0 <= pad_of e -> (0 <= os')%Z -> (order = 0 \/ order = 1 \/ order = 2)%Z ->
  (forall j, (j < n)%nat -> o_ecc (os j) = None /\ o_r_star (os j) + rs j < o_a (os j) /\ 0 <= o_sin_incl (os j)) \/
  (exists al be, (forall j, (j < n)%nat -> o_ecc (os j) <> None /\ transit_interval k (os j) (rs j) (al j) (be j) /\ solved cp (os j) (rs j) (al j) (be j) /\
     al j + pad_of e / 2 < o_period (os j) / 2 /\ be j + pad_of e / 2 < o_period (os j) / 2) /\
     (pad_of e = 0 \/ forall j u v, (j < n)%nat -> consecutive (tts j) u v ->
       2 * al j + pad_of e < v - u /\ 2 * be j + pad_of e < v - u /\ v - u < 2 * (o_period (os j) - al j) /\ v - u < 2 * (o_period (os j) - be j))) \/
  (exists j, (j < n)%nat /\ o_ecc (os j) <> None /\ snd (solver_answer cp (os j) (rs j)) <> Fin 0) ->
  exists X Y f, get_light_curve (ld_init (Fin u1) (Fin u2)) (Some (ttv_api k (lift_cp cp) o)) (Some r) (Some t) (one_texp e) os' order (Some true) false = Ok X /\
    get_light_curve (ld_init (Fin u1) (Fin u2)) (Some (ttv_api k (lift_cp cp) o)) (Some r) (Some t) (one_texp e) os' order (Some false) false = Ok Y /\
    light_table n N X f /\ light_table n N Y f.
Proof.
  intros u1 u2 k n o os tts cp r rs N t ts e os' order Hd kok sys Hr Hr0 Ht Hts He Hos Hor G.
  destruct (near_exists k n o os tts sys) as (near & Hn). destruct (ttv_answers k n o os tts near kok sys Hn (lift_cp cp)) as [HA Hs].
  apply (lc_masked u1 u2 _ false n (fun j s => pos k (os j) Relative (orbit_time os near j s) None false) (fun j => o_r_star (os j)) r rs N t ts (one_texp e) (fun _ => pad_of e)); try assumption.
  - intros j Hj. destruct (under k n o os tts sys) as (x & xs & Hx & Sy). apply (ph_r_star _ (sy_phys _ _ _ _ _ Sy j Hj)).
  - apply one_exp.
  - intros; exact He.
  - destruct G as [G|[(al & be & G & Sep)|(j & G1 & G2 & G3)]].
    + apply (tfinds_circ k n o os tts near kok sys Hn N rs t ts e cp Ht Hts He). intros j Hj. destruct (G j Hj) as (G1 & G2 & G3). split; [exact G1|]. split; [apply Hr0, Hj|]. split; assumption.
    + apply (tfinds_ecc k n o os tts near kok sys Hn N rs t ts e cp Ht Hts He al be G Sep).
    + apply (tfinds_flag k n o os tts near kok sys N rs t ts e cp Ht Hts j G1 G2 G3).
Qed.
