(** * Cutting, joining and reordering observations *)
From Coq Require Import Reals Lra Lia List Bool Arith ZArith Sorted.
From Verif Require Import Num CoreOps Inst CoreFlux M_units M_kepler M_fin M_tensor M_simple M_ttv M_limbdark Spec_orbit Spec_params Spec_array Spec_simple Spec_ttv Spec_light Spec_undef Spec_split
  L_real L_orbit L_params3 L_fl L_flux L_tens L_shape L_transit3 L_transit4 L_shapeS L_reshape L_array L_light1 L_light2 L_light3 L_light4 L_light7 L_simple L_simple2 L_ttv3 L_ttv7 L_undef L_undef2 L_undef3.
Import ListNotations.
Local Notation length := List.length.
Open Scope R_scope.

Section C.
Variables (l : limbdark) (A : orbit_api) (ld : bool) (n : nat) (P : nat -> fl -> fl * fl * fl) (rst : nat -> fl).
Hypothesis HA : answersF A ld n P.
Hypothesis Hrs : planetF n (oa_r_star A) rst.
Variables (r : tens) (sr : shape) (use : option bool).
Hypothesis Sr : ash r = Ok sr.
Hypothesis Pr : prod sr = n.
Hypothesis Hm : masks use ld = true -> masksF A ld n (areshape (rmap (fun s => [prod s]) (ash r)) r).
Lemma one_by_one : observed_one_by_one n (fun e => masks use ld = true -> single e) (fun t e osam order => get_light_curve l (Some A) (Some r) (Some t) e osam order use ld).
Proof.
  intros N t e ev N' t' e' ev' osam order Ht Ht' He He' Hee Ha Ha' Ho Hor.
  destruct (stencil_exists osam order Ho Hor) as (nodes & weights & St).
  assert (Er : forall j a b, rowF l P rst r e nodes weights j a b = rowF l P rst r e' nodes weights j a b).
  { intros. unfold rowF. destruct Hee as [H1 H2]. destruct e, e'; try reflexivity; [discriminate (H2 eq_refl)|discriminate (H1 eq_refl)]. }
  unfold get_light_curve. fold (masks use ld). destruct (masks use ld) eqn:Eu.
  - destruct (Hm eq_refl) as (ok & E & _ & HE). specialize (Ha eq_refl). specialize (Ha' eq_refl).
    assert (We : forall N e ev, exposure_values N e ev -> forall a, e = Some a -> twf a) by (intros N0 e0 ev0 H a ->; apply H).
    assert (L1 := HE N t e Ht Ha (We _ _ _ He)). assert (L2 := HE N' t' e' Ht' Ha' (We _ _ _ He')). cbv zeta in L1, L2.
    set (f := fun t e m => existsb (fun j => E (option_map (fun e : tens => aget e ix0) e) j (aget t (at_time m))) (seq 0 n)) in *.
    assert (B : forall (b : bool) g M m, In m (if b then filter g (seq 0 M) else seq 0 M) <-> (m < M)%nat /\ (b = true -> g m = true)).
    { intros b g M m. destruct b; [rewrite filter_In|]; rewrite in_seq.
      { split; [intros [H1 H2]; split; [lia|intros _; exact H2]|intros [H1 H2]; split; [lia|apply H2; reflexivity]]. }
      { split; [intros H1; split; [lia|discriminate]|intros [H1 _]; lia]. } }
    destruct (maskedF l A ld n P rst HA Hrs r sr Sr Pr N t e ev osam order nodes weights Ht He St Ha _ L1) as (X & EX & SX & VX); [intros m Hin; apply B in Hin; apply Hin|].
    destruct (maskedF l A ld n P rst HA Hrs r sr Sr Pr N' t' e' ev' osam order nodes weights Ht' He' St Ha' _ L2) as (X' & EX' & SX' & VX'); [intros m Hin; apply B in Hin; apply Hin|].
    exists X, X'. split; [exact EX|]. split; [exact EX'|]. split; [exact SX|]. split; [exact SX'|]. intros m m' j Hm1 Hm2 Hj Et Ee.
    destruct (VX m j Hm1 Hj) as [V1 V2]. destruct (VX' m' j Hm2 Hj) as [V1' V2'].
    assert (Eo : option_map (fun e : tens => aget e ix0) e = option_map (fun e : tens => aget e ix0) e').
    { destruct e as [a|], e' as [a'|]; try (destruct Hee as [H1 H2]; (discriminate (H1 eq_refl) || discriminate (H2 eq_refl))); [|reflexivity].
      cbn. f_equal. destruct He as [_ [[_ G]|[G _]]]; [|rewrite (Ha a eq_refl) in G; discriminate G].
      destruct He' as [_ [[_ G']|[G' _]]]; [|rewrite (Ha' a' eq_refl) in G'; discriminate G'].
      rewrite <- (G m), <- (G' m'). exact Ee. }
    assert (Ef : f t e m = f t' e' m') by (unfold f; rewrite Eo, Et; reflexivity).
    assert (Ei : In m (if ok (option_map (fun e : tens => aget e ix0) e) then filter (f t e) (seq 0 N) else seq 0 N)
             <-> In m' (if ok (option_map (fun e : tens => aget e ix0) e') then filter (f t' e') (seq 0 N') else seq 0 N')).
    { rewrite !B, Ef, Eo. tauto. }
    match type of V1 with In m ?L -> _ => destruct (in_dec Nat.eq_dec m L) as [I1|I1] end.
    + rewrite (V1 I1), (V1' (proj1 Ei I1)), Et, Ee. apply Er.
    + rewrite (V2 I1), V2'; [reflexivity|]. intro C. apply I1, Ei, C.
  - destruct (plainF l A ld n P rst HA Hrs r sr Sr Pr N t e ev osam order nodes weights Ht He St) as (X & EX & SX & VX).
    destruct (plainF l A ld n P rst HA Hrs r sr Sr Pr N' t' e' ev' osam order nodes weights Ht' He' St) as (X' & EX' & SX' & VX').
    exists X, X'. split; [exact EX|]. split; [exact EX'|]. split; [exact SX|]. split; [exact SX'|]. intros m m' j Hm1 Hm2 Hj Et Ee.
    rewrite (VX m j Hm1 Hj), (VX' m' j Hm2 Hj), Et, Ee. apply Er.
Qed.
End C.

(** ** in_transit *)
Lemma sorted_seq a n : StronglySorted lt (seq a n).
Proof. revert a. induction n as [|n IH]; intro a; [constructor|]. cbn. constructor; [apply IH|]. apply Forall_forall. intros x Hx. apply in_seq in Hx. lia. Qed.
Lemma sorted_filter (f : nat -> bool) l : StronglySorted lt l -> StronglySorted lt (filter f l).
Proof.
  induction l as [|a l IH]; intro H; [constructor|]. apply StronglySorted_inv in H. destruct H as [H1 H2]. cbn. destruct (f a); [|apply IH, H1]. constructor; [apply IH, H1|].
  apply Forall_forall. intros x Hx. apply filter_In in Hx. apply (proj1 (Forall_forall _ _) H2), Hx.
Qed.
(** a search that looks at every time separately *)
Definition looks_at (find : tens -> res (list nat)) : Prop := exists g : fl -> bool, forall N t, is_vector N t -> find t = Ok (filter (fun m => g (aget t (at_time m))) (seq 0 N)).
Lemma looks_found find : looks_at find -> found_one_by_one find.
Proof.
  intros [g G] N t N' t' Ht Ht'. eexists _, _. split; [apply G, Ht|]. split; [apply G, Ht'|]. split; [apply sorted_filter, sorted_seq|]. split; [intros m Hm; apply filter_In in Hm; destruct Hm as [Hm _]; apply in_seq in Hm; lia|].
  intros m m' Hm Hm' E. rewrite !filter_In, !in_seq, E. intuition lia.
Qed.
Lemma filter_shift (f g : nat -> bool) a n : (forall m, (m < n)%nat -> f (a + m)%nat = g m) -> filter f (seq a n) = map (Nat.add a) (filter g (seq 0 n)).
Proof.
  intro H. assert (K : forall k b, (forall m, (m < k)%nat -> f (a + (b + m))%nat = g (b + m)%nat) -> filter f (seq (a + b) k) = map (Nat.add a) (filter g (seq b k))).
  { induction k as [|k IH]; intros b Hb; [reflexivity|]. cbn [seq filter]. assert (H0 := Hb O ltac:(lia)). rewrite Nat.add_0_r in H0. rewrite H0.
    assert (T : filter f (seq (S (a + b)) k) = map (Nat.add a) (filter g (seq (S b) k))). { replace (S (a + b)) with (a + S b)%nat by lia. apply IH. intros m Hm. assert (Q := Hb (S m) ltac:(lia)). replace (S b + m)%nat with (b + S m)%nat by lia. exact Q. }
    rewrite T. destruct (g b); reflexivity. }
  assert (Q := K n O). rewrite Nat.add_0_r in Q. apply Q. intros m Hm. cbn. apply H, Hm.
Qed.
Lemma looks_joined find : looks_at find -> forall N t N' t' T, joined N t N' t' T -> exists l l', find t = Ok l /\ find t' = Ok l' /\ find T = Ok (l ++ map (Nat.add N) l').
Proof.
  intros [g G] N t N' t' T J. destruct J as [J1 J2 J3 J4 J5]. eexists _, _. split; [apply G, J1|]. split; [apply G, J2|]. rewrite (G _ _ J3). f_equal. rewrite seq_app, filter_app. f_equal.
  - apply filter_ext_in. intros m Hm. apply in_seq in Hm. rewrite J4 by lia. reflexivity.
  - cbn. apply filter_shift. intros m Hm. rewrite J5 by exact Hm. reflexivity.
Qed.
Lemma masks_look A n r e : masksF A false n r -> single e -> (forall a, e = Some a -> twf a) -> looks_at (fun t => oa_in_transit A t r e false).
Proof.
  intros (ok & E & _ & HE) H1 We. destruct (ok (option_map (fun e : tens => aget e ix0) e)) eqn:K.
  - exists (fun v => existsb (fun j => E (option_map (fun e : tens => aget e ix0) e) j v) (seq 0 n)). intros N t Ht. assert (L := HE N t e Ht H1 We). cbv zeta in L. rewrite K in L. exact L.
  - exists (fun _ => true). intros N t Ht. assert (L := HE N t e Ht H1 We). cbv zeta in L. rewrite K in L. rewrite L. f_equal. generalize (seq 0 N). intro q. induction q as [|a q IH]; [reflexivity|]. cbn. rewrite <- IH. reflexivity.
Qed.

(** ** KeplerianOrbit *)
Lemma kepler_looks k n x o cp r e : (0 < n)%nat -> planet_args n x -> kep_init k x = Ok o -> per_planet n r -> single e -> (forall a, e = Some a -> twf a) ->
  looks_at (fun t => kep_in_transit o (kep_warp o) (lift_cp cp) t r e false).
Proof. intros Hn Px Hx Hr. exact (masks_look (kep_api k (lift_cp cp) o) n r e (kep_masks k n x o Hn Px Hx cp r (pp_sn n r Hr))). Qed.
Lemma ttv_looks k n o os tts cp r e : consts_ok k -> ttv_system k n o os tts -> per_planet n r -> single e -> (forall a, e = Some a -> twf a) ->
  looks_at (fun t => kep_in_transit (tt_orbit o) (ttv_warp o) (lift_cp cp) t r e false).
Proof. intros kok sys Hr. exact (masks_look (ttv_api k (lift_cp cp) o) n r e (ttv_masks k n o os tts kok sys cp r (pp_sn n r Hr))). Qed.
Lemma simple_looks n x xs r e : simple_system n x xs -> per_planet n r -> single e -> (forall a, e = Some a -> twf a) ->
  looks_at (fun t => simple_in_transit (simple_init x) t (Some r) e false).
Proof. intros sys Hr. exact (masks_look (simple_api (simple_init x)) n r e (simple_masks n x xs sys r Hr)). Qed.

(** ** Tables *)
Lemma rows_of (n : nat) (q : tens -> tens) (p : nat -> fl -> fl) : (forall N t, is_vector N t -> is_table n N (q t) (fun m j => p j (aget t (at_time m)))) -> row_by_row n q.
Proof.
  intros Hq N t N' t' Ht Ht'. eexists _, _. split; [apply Hq, Ht|]. split; [apply Hq, Ht'|]. intros m m' j _ _ _ ->. reflexivity.
Qed.
Lemma rows3_of' (n : nat) (F : tens -> tens * tens * tens) (f : nat -> fl -> fl * fl * fl) : (forall N t, is_vector N t -> is_table3 n N (F t) (fun m j => f j (aget t (at_time m)))) -> row_by_row3 n F.
Proof.
  intro H. split; [|split].
  - apply (rows_of n _ (fun j v => fst (fst (f j v)))). intros N t Ht. exact (proj1 (H N t Ht)).
  - apply (rows_of n _ (fun j v => snd (fst (f j v)))). intros N t Ht. exact (proj1 (proj2 (H N t Ht))).
  - apply (rows_of n _ (fun j v => snd (f j v))). intros N t Ht. exact (proj2 (proj2 (H N t Ht))).
Qed.
Lemma split_motion : forall k n x o, planet_args n x -> kep_init k x = Ok o -> forall par ld b, opt_per_planet n par ->
  row_by_row3 n (fun t => pos k o b t par ld) /\ row_by_row3 n (fun t => vel o b t) /\ row_by_row3 n (fun t => acc o b t) /\
  row_by_row n (fun t => fst (get_relative_angles k o (kep_warp o) t par ld)) /\ row_by_row n (fun t => snd (get_relative_angles k o (kep_warp o) t par ld)).
Proof.
  intros k n x o Px Hx par ld b Hp. set (fo := fun j => orbit_at (at_planet j) o). assert (Hf : forall j : nat, (j < n)%nat -> kep_init k (args_at (at_planet j) x) = Ok (fo j)) by (intros j _; exact (planet_orbit k n x o Px Hx (at_planet j))).
  split; [|split; [|split]].
  - apply (rows3_of' n _ (fun j t => pos k (fo j) b t (opt_at_planet j par) ld)). intros N t Ht. exact (pos_table k n N x o t Px Hx Ht fo Hf b par ld Hp).
  - apply (rows3_of' n _ (fun j t => vel (fo j) b t)). intros N t Ht. exact (vel_table k n N x o t Px Hx Ht fo Hf b).
  - apply (rows3_of' n _ (fun j t => acc (fo j) b t)). intros N t Ht. exact (acc_table k n N x o t Px Hx Ht fo Hf b).
  - assert (A : forall N t, is_vector N t ->
      is_table n N (fst (get_relative_angles k o (kep_warp o) t par ld)) (fun m j => fst (get_relative_angles k (fo j) (kep_warp (fo j)) (aget t (at_time m)) (opt_at_planet j par) ld)) /\
      is_table n N (snd (get_relative_angles k o (kep_warp o) t par ld)) (fun m j => snd (get_relative_angles k (fo j) (kep_warp (fo j)) (aget t (at_time m)) (opt_at_planet j par) ld))).
    { intros N t Ht. assert (T := angles_table k n N x o t Px Hx Ht fo Hf par ld Hp).
      destruct (get_relative_angles k o (kep_warp o) t par ld) as [rho th]. exact T. }
    split.
    + apply (rows_of n _ (fun j v => fst (get_relative_angles k (fo j) (kep_warp (fo j)) v (opt_at_planet j par) ld))). intros N t Ht. apply (A N t Ht).
    + apply (rows_of n _ (fun j v => snd (get_relative_angles k (fo j) (kep_warp (fo j)) v (opt_at_planet j par) ld))). intros N t Ht. apply (A N t Ht).
Qed.
Lemma split_rv : forall k n x o, planet_args n x -> kep_init k x = Ok o -> forall K u N t N' t' X X', opt_per_planet n K -> is_vector N t -> is_vector N' t' ->
  get_radial_velocity k o (kep_warp o) t K u = Ok X -> get_radial_velocity k o (kep_warp o) t' K u = Ok X' ->
  exists f f', is_table n N X f /\ is_table n N' X' f' /\ forall m m' j, (m < N)%nat -> (m' < N')%nat -> (j < n)%nat -> aget t (at_time m) = aget t' (at_time m') -> f m j = f' m' j.
Proof.
  intros k n x o Px Hx K u N t N' t' X X' HK Ht Ht' H H'. set (fo := fun j => orbit_at (at_planet j) o). assert (Hf : forall j : nat, (j < n)%nat -> kep_init k (args_at (at_planet j) x) = Ok (fo j)) by (intros j _; exact (planet_orbit k n x o Px Hx (at_planet j))).
  destruct (rv_table k n N x o t Px Hx Ht fo Hf K u X HK H) as (f & T & V). destruct (rv_table k n N' x o t' Px Hx Ht' fo Hf K u X' HK H') as (f' & T' & V').
  exists f, f'. split; [exact T|]. split; [exact T'|]. intros m m' j Hm Hm' Hj E. specialize (V m j Hm Hj). specialize (V' m' j Hm' Hj). rewrite E in V. rewrite V in V'. injection V' as ->. reflexivity.
Qed.

(** ** The theorems *)
Lemma split_found : forall k n x o cp r e, (0 < n)%nat -> planet_args n x -> kep_init k x = Ok o -> per_planet n r -> opt_per_planet n e -> single e ->
  found_one_by_one (fun t => kep_in_transit o (kep_warp o) (lift_cp cp) t r e false).
Proof. intros k n x o cp r e Hn Px Hx Hr He H1. apply looks_found, (kepler_looks k n x o cp r e Hn Px Hx Hr H1). intros a ->. apply He. Qed.
Lemma split_found_simple : forall n x xs r e, simple_system n x xs -> per_planet n r -> opt_per_planet n e -> single e ->
  found_one_by_one (fun t => simple_in_transit (simple_init x) t (Some r) e false).
Proof. intros n x xs r e sys Hr He H1. apply looks_found, (simple_looks n x xs r e sys Hr H1). intros a ->. apply He. Qed.
Lemma split_found_ttv : forall k n o os tts cp r e, consts_ok k -> ttv_system k n o os tts -> per_planet n r -> opt_per_planet n e -> single e ->
  found_one_by_one (fun t => kep_in_transit (tt_orbit o) (ttv_warp o) (lift_cp cp) t r e false).
Proof. intros k n o os tts cp r e kok sys Hr He H1. apply looks_found, (ttv_looks k n o os tts cp r e kok sys Hr H1). intros a ->. apply He. Qed.
Lemma join_found : forall k n x o cp r e N t N' t' T, (0 < n)%nat -> planet_args n x -> kep_init k x = Ok o -> per_planet n r -> opt_per_planet n e -> single e -> joined N t N' t' T ->
  let find t := kep_in_transit o (kep_warp o) (lift_cp cp) t r e false in exists l l', find t = Ok l /\ find t' = Ok l' /\ find T = Ok (l ++ map (Nat.add N) l').
Proof. intros k n x o cp r e N t N' t' T Hn Px Hx Hr He H1 J. apply (looks_joined (fun t => kep_in_transit o (kep_warp o) (lift_cp cp) t r e false)) with (t' := t') (N' := N'); [|exact J]. apply (kepler_looks k n x o cp r e Hn Px Hx Hr H1). intros a ->. apply He. Qed.
Lemma join_found_simple : forall n x xs r e N t N' t' T, simple_system n x xs -> per_planet n r -> opt_per_planet n e -> single e -> joined N t N' t' T ->
  let find t := simple_in_transit (simple_init x) t (Some r) e false in exists l l', find t = Ok l /\ find t' = Ok l' /\ find T = Ok (l ++ map (Nat.add N) l').
Proof. intros n x xs r e N t N' t' T sys Hr He H1 J. apply (looks_joined (fun t => simple_in_transit (simple_init x) t (Some r) e false)) with (t' := t') (N' := N'); [|exact J]. apply (simple_looks n x xs r e sys Hr H1). intros a ->. apply He. Qed.
Lemma join_found_ttv : forall k n o os tts cp r e N t N' t' T, consts_ok k -> ttv_system k n o os tts -> per_planet n r -> opt_per_planet n e -> single e -> joined N t N' t' T ->
  let find t := kep_in_transit (tt_orbit o) (ttv_warp o) (lift_cp cp) t r e false in exists l l', find t = Ok l /\ find t' = Ok l' /\ find T = Ok (l ++ map (Nat.add N) l').
Proof. intros k n o os tts cp r e N t N' t' T kok sys Hr He H1 J. apply (looks_joined (fun t => kep_in_transit (tt_orbit o) (ttv_warp o) (lift_cp cp) t r e false)) with (t' := t') (N' := N'); [|exact J]. apply (ttv_looks k n o os tts cp r e kok sys Hr H1). intros a ->. apply He. Qed.
Lemma split_light : forall k n x o, (0 < n)%nat -> planet_args n x -> kep_init k x = Ok o -> forall l r sr use ld, ash r = Ok sr -> prod sr = n -> (masks use ld = true -> ld = false) -> forall cp,
  observed_one_by_one n (fun e => masks use ld = true -> single e) (fun t e osam order => get_light_curve l (Some (kep_api k (lift_cp cp) o)) (Some r) (Some t) e osam order use ld).
Proof.
  intros k n x o Hn Px Hx l r sr use ld Sr Pr Hu cp. refine (one_by_one l (kep_api k (lift_cp cp) o) ld n _ _ (kepF k n x o Px Hx _ ld) (kep_rst k n x o Px Hx _) r sr use Sr Pr _).
  intro E. rewrite (Hu E). apply (kep_masks k n x o Hn Px Hx). exact (rF_sn n r sr Sr Pr).
Qed.
Lemma split_light_ttv : forall k n o os tts, consts_ok k -> ttv_system k n o os tts -> forall l r sr use, ash r = Ok sr -> prod sr = n -> forall cp,
  observed_one_by_one n (fun e => masks use false = true -> single e) (fun t e osam order => get_light_curve l (Some (ttv_api k (lift_cp cp) o)) (Some r) (Some t) e osam order use false).
Proof.
  intros k n o os tts kok sys l r sr use Sr Pr cp. refine (one_by_one l (ttv_api k (lift_cp cp) o) false n _ _ (ttvF k n o os tts kok sys _) (ttv_rst k n o os tts kok sys _) r sr use Sr Pr _).
  intros _. apply (ttv_masks k n o os tts kok sys). exact (rF_sn n r sr Sr Pr).
Qed.
Lemma split_light_simple : forall n x xs, simple_system n x xs -> (forall j, (j < n)%nat -> simple_ok (xs j)) -> forall l r sr use, ash r = Ok sr -> prod sr = n ->
  observed_one_by_one n (fun e => masks use false = true -> single e) (fun t e osam order => get_light_curve l (Some (simple_api (simple_init x))) (Some r) (Some t) e osam order use false).
Proof.
  intros n x xs sys ok l r sr use Sr Pr. refine (one_by_one l (simple_api (simple_init x)) false n _ _ (simpleF n x xs sys) (simple_rst n x xs sys ok) r sr use Sr Pr _).
  intros _. apply (simple_masks n x xs sys). assert (Q := rF_sn n r sr Sr Pr). assert (S := rF_sh n r sr Sr Pr). split; [|right; exact S].
  intros s Hs i i' Hi. rewrite Hs in S. injection S as ->. destruct Q as [[C _]|[_ Q]]; [rewrite Hs in C; discriminate C|].
  destruct (Nat.eq_dec n 1) as [E1|E1]; [|apply Q, Hi; exact E1].
  rewrite Sr. cbn [rmap]. rewrite !(reshape_at r sr [prod sr] _ Sr), Pr, E1. reflexivity.
Qed.
(** a data set may be cut in two anywhere *)
Lemma join_light : forall n allowed curve N t N' t' T e osam order, observed_one_by_one n allowed curve -> joined N t N' t' T -> (forall a, e = Some a -> twf a) -> single e -> allowed e -> (0 <= osam)%Z -> (order = 0 \/ order = 1 \/ order = 2)%Z ->
  exists X X' Y, curve t e osam order = Ok X /\ curve t' e osam order = Ok X' /\ curve T e osam order = Ok Y /\ ash Y = Ok [n; (N + N')%nat] /\
    (forall m j, (m < N)%nat -> (j < n)%nat -> aget Y (at_tp m j) = aget X (at_tp m j)) /\ (forall m j, (m < N')%nat -> (j < n)%nat -> aget Y (at_tp (N + m) j) = aget X' (at_tp m j)).
Proof.
  intros n allowed curve N t N' t' T e osam order H J We H1 Ha Ho Hor. destruct J as [J1 J2 J3 J4 J5].
  assert (Ev : forall M, exposure_values M e (fun _ => match e with Some a => aget a ix0 | None => Fin 0 end)).
  { intro M. destruct e as [a|]; [|intro m; reflexivity]. split; [apply We; reflexivity|]. left. split; [apply H1; reflexivity|reflexivity]. }
  assert (B : both_or_neither e e) by (split; auto).
  destruct (H _ T e _ _ t e _ osam order J3 J1 (Ev _) (Ev _) B Ha Ha Ho Hor) as (Y & X & E1 & E2 & S1 & _ & V1).
  destruct (H _ T e _ _ t' e _ osam order J3 J2 (Ev _) (Ev _) B Ha Ha Ho Hor) as (Y' & X' & E1' & E2' & _ & _ & V2). rewrite E1 in E1'. apply Ok_inj in E1'. subst Y'.
  exists X, X', Y. repeat (split; [assumption|]). split.
  - intros m j Hm Hj. apply V1; try assumption; [lia|apply J4, Hm|reflexivity].
  - intros m j Hm Hj. apply V2; try assumption; [lia|apply J5, Hm|reflexivity].
Qed.
