(** * Impact parameters no orbit can have: systems, light curves, in_transit *)
From Coq Require Import Reals List Bool Arith ZArith Lra Lia Psatz Sorted FunctionalExtensionality.
From Verif Require Import Num CoreOps Inst CoreFlux M_units M_kepler M_fin M_tensor M_limbdark Spec_orbit Spec_params Spec_array Spec_light Spec_reach
  L_real L_orbit L_params3 L_params4 L_fl L_fl2 L_fl3 L_fl4 L_tens L_shape L_shapeS L_transit L_transit2 L_transit3 L_transit4 L_array L_ptransit L_reshape L_flux L_light1 L_light2 L_light3 L_light4 L_light7 L_light8 L_reach.
Import ListNotations.
Local Notation length := List.length.
Open Scope R_scope.

Lemma edge_on k x o b : unreachable k x o b -> o_sin_incl o = 1 /\ o_cos_incl o = 0.
Proof.
  intros [Hb Hi Hd H ph far]. assert (E := kep_init_b k x 0 0 Hd). rewrite H in E. cbn [rmap] in E. apply Ok_inj in E.
  assert (C : o_cos_incl o = 0). { rewrite E. cbn [put_b o_cos_incl]. cbn [nmul NumR]. ring. }
  split; [|exact C]. rewrite E. cbn [put_b o_sin_incl]. cbn [nmul nacos nsin NumR]. rewrite Rmult_0_r, acos_0. apply sin_PI2.
Qed.

(** ** A light curve does not see where a planet is that is not in front *)
Definition unnan (v : fl) : fl := match v with NaN => Fin 0 | _ => v end.
Definition unnan_api (A : orbit_api) : orbit_api :=
  {| oa_pos := fun t ld => rmap (fun p : tens * tens * tens => (fst (fst p), snd (fst p), amap unnan (snd p))) (oa_pos A t ld);
     oa_in_transit := oa_in_transit A; oa_r_star := oa_r_star A |}.
Lemma unnan_front z r : flt (Fin 0) (fdiv (unnan z) r) = flt (Fin 0) (fdiv z r).
Proof.
  destruct z as [z|s|]; try reflexivity. cbn [unnan fdiv flt]. destruct r as [r|?|]; try reflexivity.
  - destruct (Reqb r 0); [rewrite (L_fl.Reqb_true 0 0) by reflexivity; reflexivity|]. cbn [flt]. unfold Rltb. destruct (Rlt_dec _ _); [|reflexivity]. unfold Rdiv in *. lra.
  - cbn [flt]. unfold Rltb. destruct (Rlt_dec _ _); [lra|reflexivity].
Qed.
Lemma reshape_map {A C} (f : A -> C) s (z : arr A) : areshape s (amap f z) = amap f (areshape s z).
Proof. unfold areshape, amap. cbn [ash aget]. destruct (ash z); destruct s; reflexivity. Qed.
Lemma unnan_grid l A : grid_flux l (unnan_api A) = grid_flux l A.
Proof.
  apply functional_extensionality. intro r. apply functional_extensionality. intro t. apply functional_extensionality. intro ld.
  unfold grid_flux. cbn [unnan_api oa_pos oa_r_star]. destruct (oa_pos A t ld) as [[[x y] z]|e]; [|reflexivity]. cbn [rmap rbind fst snd].
  f_equal. unfold compute_light_curve. rewrite reshape_map. set (q := areshape _ z).
  set (lc := quad_light_curve _ _ _). cbn [nsw nlt nlit ndiv NumT]. unfold amap3, amap2, amap. cbn [ash aget alit]. f_equal.
  apply functional_extensionality. intro i. rewrite unnan_front. reflexivity.
Qed.
Lemma unnan_light l A r t texp os order use ld :
  get_light_curve l (Some (unnan_api A)) r t texp os order use ld = get_light_curve l (Some A) r t texp os order use ld.
Proof.
  unfold get_light_curve. destruct r as [r|]; [|reflexivity]. destruct t as [t|]; [|reflexivity].
  unfold get_light_curve_checked. rewrite unnan_grid. reflexivity.
Qed.

Section M.
Variables (k : consts) (n : nat) (x : kargs tens) (xs : nat -> kargs R) (os : nat -> orbit R) (bs : nat -> option R).
Hypothesis kok : consts_ok k.
Hypothesis mix : mixed_system k n x xs os bs.

Definition fos (j : nat) : orbit fl := match bs j with None => fin_orbit (os j) | Some b => beyond (os j) b end.

Lemma mixed_at i : (i O < n)%nat -> args_at i x = fin_args (xs (i O)).
Proof.
  intro Hi. rewrite <- (mx_at _ _ _ _ _ _ mix _ Hi). destruct (mx_args _ _ _ _ _ _ mix).
  unfold args_at, map_args. 
  rewrite (qty_at n (ka_period x) i (qpp_sn n _ pl_period)),
    (qty_at n (ka_a x) i (qpp_sn n _ pl_a)),
    (qty_at n (ka_duration x) i (qpp_sn n _ pl_duration)),
    (qty_at n (ka_m_planet x) i (qpp_sn n _ pl_mp)),
    (qty_at n (ka_m_star x) i (qpp_sn n _ pl_ms)),
    (qty_at n (ka_r_star x) i (qpp_sn n _ pl_rs)),
    (qty_at n (ka_rho_star x) i (qpp_sn n _ pl_rho)),
    (opt_at n (ka_t0 x) i (opp_sn n _ pl_t0)),
    (opt_at n (ka_tper x) i (opp_sn n _ pl_tper)),
    (opt_at n (ka_incl x) i (opp_sn n _ pl_incl)),
    (opt_at n (ka_b x) i (opp_sn n _ pl_b)),
    (opt_at n (ka_ecc x) i (opp_sn n _ pl_ecc)),
    (opt_at n (ka_omega x) i (opp_sn n _ pl_omega)),
    (opt_at n (ka_sin_omega x) i (opp_sn n _ pl_sin)),
    (opt_at n (ka_cos_omega x) i (opp_sn n _ pl_cos)),
    (opt_at n (ka_Omega x) i (opp_sn n _ pl_Omega)),
    (opt_at n (ka_ror x) i (opp_sn n _ pl_ror)). reflexivity.
Qed.
Lemma mixed_init j : (j < n)%nat -> kep_init k (fin_args (xs j)) = Ok (fos j).
Proof.
  intro Hj. assert (P := mx_planet _ _ _ _ _ _ mix j Hj). unfold fos. destruct (bs j) as [b|].
  - apply unreachable_init; assumption.
  - destruct P as (P1 & P2 & P3). apply kep_init_fin; assumption.
Qed.
Lemma mixed_phys j : (j < n)%nat -> physical (os j).
Proof. intro Hj. assert (P := mx_planet _ _ _ _ _ _ mix j Hj). destruct (bs j); [apply (ur_phys _ _ _ _ P)|apply P]. Qed.
Lemma mixed_orbit : exists o, kep_init k x = Ok o /\ orbit_sn n o /\ En n (o_n o) /\ En n (o_period o) /\
  forall i, (i O < n)%nat -> orbit_at i o = fos (i O).
Proof.
  assert (K : forall i, (i O < n)%nat -> rmap (orbit_at i) (kep_init k x) = Ok (fos (i O))).
  { intros i Hi. rewrite <- kep_init_at, mixed_at by assumption. apply mixed_init, Hi. }
  destruct (kep_init k x) as [o|e] eqn:E.
  - exists o. split; [reflexivity|]. destruct (kep_init_sn n k x o (mx_args _ _ _ _ _ _ mix) E) as (A & B & C).
    split; [exact A|]. split; [exact B|]. split; [exact C|]. intros i Hi. specialize (K i Hi). cbn [rmap] in K. apply Ok_inj in K. exact K.
  - specialize (K ix0 (mx_n _ _ _ _ _ _ mix)). discriminate K.
Qed.
Lemma fos_r_star j : o_r_star (fos j) = Fin (o_r_star (os j)).
Proof. unfold fos. destruct (bs j); reflexivity. Qed.

(** ** positions *)
Definition rel (j : nat) (t : R) : R * R * R := pos k (os j) Relative t None false.
Definition P' (j : nat) (t : R) : R * R * R :=
  match bs j with
  | None => rel j t
  | Some b => let y1 := - vz (rel j t) in let c := o_dcosidb (os j) * b in
              (vx (rel j t) - sinO_of (os j) * (c * y1), vy (rel j t) + cosO_of (os j) * (c * y1), 0)
  end.
Lemma fos_pos j t : (j < n)%nat ->
  get_position k (fos j) (kep_warp (fos j)) (- o_a (fos j))%num (Fin t) None false true =
  match bs j with None => fin3 (rel j t) | Some b => seen (os j) b (rel j t) end.
Proof.
  intro Hj. assert (ph := mixed_phys j Hj). assert (M := mx_planet _ _ _ _ _ _ mix j Hj). unfold rel, fos. destruct (bs j) as [b|].
  - unfold pos, get_relative_position. replace (sqz3 (get_position k (os j) (kep_warp (os j)) (- o_a (os j))%num t None false true)) with (get_position k (os j) (kep_warp (os j)) (- o_a (os j))%num t None false true).
    2:{ destruct (get_position k (os j) (kep_warp (os j)) (- o_a (os j))%num t None false true) as [[? ?] ?]. reflexivity. }
    unfold get_position. cbn [beyond o_a]. change (- Fin (o_a (os j)))%num with (Fin (- o_a (os j))).
    apply (pos_beyond k (os j) b ph (edge_on _ _ _ _ M) (kep_warp (os j))). intros pad s. apply (kep_warp_fin (os j) pad s).
  - change (- o_a (fin_orbit (os j)))%num with (Fin (- o_a (os j))). unfold pos, get_relative_position.
    replace (sqz3 (get_position k (os j) (kep_warp (os j)) (- o_a (os j))%num t None false true)) with (get_position k (os j) (kep_warp (os j)) (- o_a (os j))%num t None false true).
    2:{ destruct (get_position k (os j) (kep_warp (os j)) (- o_a (os j))%num t None false true) as [[? ?] ?]. reflexivity. }
    unfold get_position. change (@None fl) with (option_map Fin None). apply (pos_nd_fin k (os j) ph (kep_warp (os j))). intros pad s. apply kep_warp_fin.
Qed.

Lemma mixed_answers o cp : kep_init k x = Ok o ->
  answers (unnan_api (kep_api k cp o)) false n P' /\ planet_numbers n (oa_r_star (unnan_api (kep_api k cp o))) (fun j => o_r_star (os j)).
Proof.
  intro Ho. destruct mixed_orbit as (o' & Ho' & So & Eno & Epo & Oat). rewrite Ho in Ho'. apply Ok_inj in Ho'. subst o'.
  split.
  - intros s t ts Et Wt Vt. cbn [oa_pos unnan_api kep_api]. unfold get_relative_position.
    assert (Sa : Sn n (- o_a o)%num) by apply (Sn_map n fneg), (os_a _ _ So).
    assert (W1 : forall t0, ash t0 = Ok s -> T1S n s (kep_warp o true t0)).
    { intros t0 E. apply (T1S_map2l n s fsub); [apply padr_T1S; exact E|apply (os_t0 _ _ So)]. }
    assert (W0 : forall t0, ENS n s t0 -> ENS n s (kep_warp o false t0)).
    { intros t0 E. apply (ENS_map2l n s fsub); [exact E|apply (os_t0 _ _ So)]. }
    assert (Sh := pos_shapeS n s k o So Eno (kep_warp o) W1 W0 (- o_a o)%num t None false Sa I Et _ eq_refl).
    assert (Va := fun i => get_position_at k i o (kep_warp o) (kep_warp (orbit_at i o)) (kep_warp_at1 o i) (kep_warp_at0 o i) (- o_a o)%num t None false true).
    destruct (get_position k o (kep_warp o) (- o_a o)%num t None false true) as [[X Y] Z]. cbn [fst snd] in Sh. destruct Sh as (SX & SY & SZ).
    exists (asqz X), (asqz Y), (asqz (amap unnan Z)), (squeezed (n :: s)). split.
    { cbn [rmap sqz3 nsqz NumT fst snd]. unfold asqz, amap. cbn [ash aget]. destruct (ash Z); reflexivity. }
    apply (answers_of n s t ts X Y (amap unnan Z) P' Et Wt Vt SX SY SZ).
    intros i tt Hi Htt. specialize (Va i). rewrite (Oat i Hi) in Va. rewrite Htt in Va.
    assert (F := fos_pos (i O) tt Hi). cbn [option_map] in Va.
    replace (aget (- o_a o)%num i) with (- o_a (fos (i O)))%num in Va by (rewrite <- (Oat i Hi); reflexivity).
    rewrite F in Va. unfold P'. cbn [vec_at map_vec] in Va. cbn [amap aget]. destruct (bs (i O)) as [b|].
    + unfold seen in Va. injection Va as E1 E2 E3. rewrite E1, E2, E3. reflexivity.
    + destruct (rel (i O) tt) as [[p q] r]. cbn [fin3 map_vec] in Va |- *. injection Va as E1 E2 E3. rewrite E1, E2, E3. reflexivity.
  - cbn [oa_r_star unnan_api kep_api].
    split; [destruct (os_r _ _ So) as [[E _]|[E _]]; [left|right]; exact E|].
    intros i Hi. assert (E := Oat i Hi). apply (f_equal (fun o => o_r_star o)) in E. rewrite fos_r_star in E. exact E.
Qed.
End M.

(** ** light curves *)
Definition table_of (k : consts) (os : nat -> orbit R) (bs : nat -> option R) (u1 u2 : R) (rs : nat -> R) (j : nat) (s : R) : R :=
  match bs j with
  | Some _ => 0
  | None => flux_at u1 u2 (pos k (os j) Relative s None false) (rs j) (o_r_star (os j))
  end.
Lemma flux_behind u1 u2 X Y rp rst : flux_at u1 u2 (X, Y, 0) rp rst = 0.
Proof. unfold flux_at, rel_flux, vz. cbn [snd]. destruct (Rlt_dec _ _) as [H|]; [|reflexivity]. exfalso. unfold Rdiv in H. lra. Qed.
Lemma flux_P' k os bs u1 u2 rs j s : flux_at u1 u2 (P' k os bs j s) (rs j) (o_r_star (os j)) = table_of k os bs u1 u2 rs j s.
Proof. unfold P', table_of. destruct (bs j); [apply flux_behind|reflexivity]. Qed.
Lemma table_ext n N X f g : (forall m j, f m j = g m j) -> light_table n N X f -> light_table n N X g.
Proof. intros E [H1 H2]. split; [exact H1|]. intros m j Hm Hj. rewrite <- E. apply H2; assumption. Qed.
Lemma node_mean_ext nodes weights f g t e : (forall s, f s = g s) -> node_mean nodes weights f t e = node_mean nodes weights g t e.
Proof. intro E. unfold node_mean. f_equal. apply map_ext. intro p. rewrite E. reflexivity. Qed.

Lemma reach_light : forall u1 u2 k n (x : kargs tens) xs os bs o cp r rs N t ts os' order,
  disk_flux u1 u2 <> 0 -> consts_ok k -> mixed_system k n x xs os bs -> kep_init k x = Ok o ->
  elements n r rs -> is_vector N t -> (forall m, (m < N)%nat -> aget t (at_time m) = Fin (ts m)) ->
  exists X, get_light_curve (ld_init (Fin u1) (Fin u2)) (Some (kep_api k cp o)) (Some r) (Some t) None os' order (Some false) false = Ok X /\
    light_table n N X (fun m j => match bs j with
      | Some _ => 0
      | None => flux_at u1 u2 (pos k (os j) Relative (ts m) None false) (rs j) (o_r_star (os j))
      end).
Proof.
  intros u1 u2 k n x xs os bs o cp r rs N t ts os' order Hd kok mix Ho Hr Ht Hts. destruct (mixed_answers k n x xs os bs kok mix o cp Ho) as [HA Hs].
  destruct (lc_plain u1 u2 (unnan_api (kep_api k cp o)) false n (P' k os bs) (fun j => o_r_star (os j)) r rs N t ts os' order Hd HA Hs) as (X & EX & TX); try assumption.
  { intros j Hj. assert (P := ph_r_star _ (mixed_phys k n x xs os bs mix j Hj)). lra. }
  exists X. rewrite unnan_light in EX. split; [exact EX|]. refine (table_ext n N X _ _ _ TX). intros m j. apply flux_P'.
Qed.
Lemma reach_exposed : forall u1 u2 k n (x : kargs tens) xs os bs o cp r rs N t ts e es os' order nodes weights,
  disk_flux u1 u2 <> 0 -> consts_ok k -> mixed_system k n x xs os bs -> kep_init k x = Ok o ->
  elements n r rs -> is_vector N t -> (forall m, (m < N)%nat -> aget t (at_time m) = Fin (ts m)) ->
  exposures N e es -> stencil os' order = Ok (nodes, weights) ->
  exists X, get_light_curve (ld_init (Fin u1) (Fin u2)) (Some (kep_api k cp o)) (Some r) (Some t) (Some e) os' order (Some false) false = Ok X /\
    light_table n N X (fun m j => match bs j with
      | Some _ => 0
      | None => node_mean nodes weights (fun s => flux_at u1 u2 (pos k (os j) Relative s None false) (rs j) (o_r_star (os j))) (ts m) (es m)
      end).
Proof.
  intros u1 u2 k n x xs os bs o cp r rs N t ts e es os' order nodes weights Hd kok mix Ho Hr Ht Hts He Hst. destruct (mixed_answers k n x xs os bs kok mix o cp Ho) as [HA Hs].
  destruct (lc_exposed u1 u2 (unnan_api (kep_api k cp o)) false n (P' k os bs) (fun j => o_r_star (os j)) r rs N t ts e es os' order nodes weights Hd HA Hs) as (X & EX & TX); try assumption.
  { intros j Hj. assert (P := ph_r_star _ (mixed_phys k n x xs os bs mix j Hj)). lra. }
  exists X. rewrite unnan_light in EX. split; [exact EX|]. refine (table_ext n N X _ _ _ TX). intros m j. cbv beta.
  rewrite (node_mean_ext nodes weights _ (table_of k os bs u1 u2 rs j)) by (intro s; apply flux_P'). unfold table_of. destruct (bs j); [|reflexivity].
  apply mean_zero. reflexivity.
Qed.
