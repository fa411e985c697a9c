(** * Impact parameters no orbit can have: in_transit, velocities, an example *)
From Coq Require Import Reals List Bool Arith ZArith Lra Lia Psatz Sorted.
From Verif Require Import Num CoreOps Inst CoreFlux M_units M_kepler M_fin M_tensor M_limbdark Spec_orbit Spec_params Spec_array Spec_light Spec_reach
  L_real L_orbit L_params3 L_params4 L_fl L_fl2 L_fl3 L_fl4 L_tens L_shape L_shapeS L_transit L_transit2 L_transit3 L_transit4 L_array L_ptransit L_light3 L_light4 L_light7 L_light8 L_reach L_reach2.
Import ListNotations.
Local Notation length := List.length.
Open Scope R_scope.

Lemma entry_beyond o b wf cp t r te : o_ecc o = None -> transit_mask (beyond o b) wf cp t (Fin r) te = (false, Fin 0).
Proof.
  intro E. unfold transit_mask. generalize (since_transit (beyond o b) wf t). intro d. unfold transit_window.
  cbn [beyond o_a o_period o_r_star o_ecc o_b o_sin_incl]. rewrite E. cbn [option_map].
  destruct te as [[?|?|]|]; reflexivity.
Qed.

Section T.
Variables (k : consts) (n N : nat) (x : kargs tens) (xs : nat -> kargs R) (os : nat -> orbit R) (bs : nat -> option R).
Variables (r : tens) (rs : nat -> R) (te : option tens) (es : nat -> R) (t : tens) (ts : nat -> R).
Variable cp : fl -> fl -> fl -> fl -> fl -> fl -> fl -> fl * fl * fl.
Hypothesis kok : consts_ok k.
Hypothesis mix : mixed_system k n x xs os bs.
Hypothesis Hr : planet_values n r rs.
Hypothesis He : opt_values n te es.
Hypothesis Hpos : forall j, (j < n)%nat -> 0 <= es j.
Hypothesis Ht : is_vector N t.
Hypothesis Hts : forall m, (m < N)%nat -> aget t (at_time m) = Fin (ts m).
Local Notation fo j := (fos os bs j).

Definition entry' (m j : nat) : bool * fl :=
  transit_mask (fo j) (kep_warp (fo j)) cp (Fin (ts m)) (Fin (rs j)) (option_map Fin (te_of te es j)).
Lemma kin_mixed : exists o, kep_init k x = Ok o /\
  kep_in_transit o (kep_warp o) (lift_cp cp) t r te false
    = Ok (if flags_ok n entry' then picked n N entry' else seq 0 N).
Proof.
  destruct (mixed_orbit k n x xs os bs kok mix) as (o & Ho & So & Eno & Epo & At). exists o. split; [exact Ho|].
  assert (Hw : T1 n N (kep_warp o true t)).
  { apply (T1_map2l n N fsub); [apply padr_T1; apply Ht|apply (os_t0 _ _ So)]. }
  destruct (Nat.eq_dec N 0) as [E|E].
  - rewrite (kin_nil n N o So Eno Epo (kep_warp o) t (proj2 Ht) Hw cp r te (pp_sn _ _ (proj1 Hr)) (te_sn n te es He) E).
    unfold picked. rewrite E. cbn. destruct (flags_ok n entry'); reflexivity.
  - apply (kin_list n N o So Eno Epo (mx_n _ _ _ _ _ _ mix) (kep_warp o) t (proj2 Ht) Hw cp r te (pp_sn _ _ (proj1 Hr)) (te_sn n te es He)
      entry' (fun i => kep_warp (orbit_at i o))); [intro i; apply kep_warp_at1| |lia].
    intros m j Hm Hj i. unfold entry'. assert (Hi : (i O < n)%nat) by exact Hj.
    rewrite (At i Hi). unfold i at 3. rewrite (time_at' N t ts Ht Hts j m Hm). rewrite (val_at n r rs i Hr Hi), (te_at n te es He i Hi). reflexivity.
Qed.
Lemma in_picked' m : In m (picked n N entry') <-> (m < N)%nat /\ exists j, (j < n)%nat /\ fst (entry' m j) = true.
Proof.
  unfold picked. rewrite filter_In, in_seq, existsb_exists. split.
  - intros [H1 (j & Hj & E)]. apply in_seq in Hj. split; [lia|]. exists j. split; [lia|exact E].
  - intros [H1 (j & Hj & E)]. split; [lia|]. exists j. split; [apply in_seq; lia|exact E].
Qed.
Lemma circ_entry m j : (j < n)%nat -> bs j = None -> ka_ecc (xs j) = None -> 0 <= rs j -> o_r_star (os j) + rs j < o_a (os j) -> 0 <= o_sin_incl (os j) ->
  exists b, entry' m j = (b, Fin 0) /\ (b = true <-> exists s, Rabs (s - ts m) <= es j / 2 /\ transits k (os j) (rs j) s).
Proof.
  intros Hj Hb G1 G2 G3 G4. assert (M := mx_planet _ _ _ _ _ _ mix j Hj). unfold entry', fos. rewrite Hb in *. destruct M as (Hi & Hp & _).
  destruct (mask_circ k kok (xs j) (os j) Hi Hp (proj2 (kep_circ k _ _ Hi) G1) (rs j) (kep_warp (fin_orbit (os j))) cp (Fin (ts m))
      (ts m - o_t0 (os j)) (kep_warp_fin (os j) true (ts m)) (te_of te es j) G2 G3 G4) as (b & E & B).
  { rewrite (te_pad n te es He). apply Hpos, Hj. }
  exists b. split; [exact E|]. rewrite B, (te_pad n te es He). split; intros (s & S1 & S2).
  - exists (o_t0 (os j) + s). split; [|exact S2]. replace (o_t0 (os j) + s - ts m) with (s - (ts m - o_t0 (os j))) by ring. exact S1.
  - exists (s - o_t0 (os j)). split; [replace (s - o_t0 (os j) - (ts m - o_t0 (os j))) with (s - ts m) by ring; exact S1|].
    replace (o_t0 (os j) + (s - o_t0 (os j))) with s by ring. exact S2.
Qed.
Lemma void_entry m j b : (j < n)%nat -> bs j = Some b -> ka_ecc (xs j) = None -> entry' m j = (false, Fin 0).
Proof.
  intros Hj Hb G1. assert (M := mx_planet _ _ _ _ _ _ mix j Hj). unfold entry', fos. rewrite Hb in *. apply entry_beyond.
  apply (kep_circ k _ _ (ur_init _ _ _ _ M)). exact G1.
Qed.
Lemma ecc_entry m j al be : (j < n)%nat -> bs j = None -> ka_ecc (xs j) <> None -> transit_interval k (os j) (rs j) al be -> solved cp (os j) (rs j) al be ->
  al + es j / 2 < o_period (os j) / 2 -> be + es j / 2 < o_period (os j) / 2 ->
  (exists s, Rabs (s - ts m) <= es j / 2 /\ transits k (os j) (rs j) s) -> fst (entry' m j) = true.
Proof.
  intros Hj Hb G1 (G2 & G3 & GT) (m1 & m2 & G6) G4 G5 (s & S1 & S2). assert (M := mx_planet _ _ _ _ _ _ mix j Hj). unfold entry', fos. rewrite Hb in *. destruct M as (Hi & Hp & _).
  assert (F := kep_init_facts k kok (xs j) (os j) Hi Hp).
  unfold solver_answer in G6. destruct (o_ecc (os j)) as [d|] eqn:E.
  2:{ exfalso. apply G1. apply (kep_circ k _ _ Hi). exact E. }
  assert (P := ph_period _ Hp). assert (Hpi := PI_RGT_0). assert (He0 := Hpos j Hj).
  assert (EM : o_M0 (os j) = 2 * PI / o_period (os j) * (o_t0 (os j) - o_tper (os j))).
  { rewrite (of_t0 _ _ _ F), (of_n _ _ _ F). field. split; lra. }
  destruct (mask_ecc k kok (xs j) (os j) Hi Hp d E (rs j) (kep_warp (fin_orbit (os j))) cp (Fin (ts m)) (ts m - o_t0 (os j))
    (kep_warp_fin (os j) true (ts m)) (te_of te es j) al be m1 m2 (Fin 0)) as (b & Eb & B); try assumption.
  { rewrite G6. rewrite EM, (of_n _ _ _ F). f_equal; f_equal; f_equal; field; lra. }
  { rewrite (te_pad n te es He). exact He0. }
  { rewrite (te_pad n te es He). exact G4. }
  { rewrite (te_pad n te es He). exact G5. }
  rewrite Eb. cbn [fst]. apply B. rewrite (te_pad n te es He). apply GT in S2. destruct S2 as (q & S2). exists q.
  revert S1. unfold Rabs. destruct (Rcase_abs _); intro; lra.
Qed.

Lemma in_transit_mixed :
  (forall j, (j < n)%nat -> ka_ecc (xs j) = None) ->
  (forall j, (j < n)%nat -> bs j = None -> 0 <= rs j /\ o_r_star (os j) + rs j < o_a (os j) /\ 0 <= o_sin_incl (os j)) ->
  exists o l, kep_init k x = Ok o /\
    kep_in_transit o (kep_warp o) (lift_cp cp) t r te false = Ok l /\ StronglySorted lt l /\
    forall m, In m l <-> (m < N)%nat /\ exists j s, (j < n)%nat /\ bs j = None /\ Rabs (s - ts m) <= es j / 2 /\ transits k (os j) (rs j) s.
Proof.
  intros Gc G. destruct kin_mixed as (o & Ho & Hl). exists o.
  assert (M : forall m j, (j < n)%nat -> exists b, entry' m j = (b, Fin 0) /\
     (b = true <-> bs j = None /\ exists s, Rabs (s - ts m) <= es j / 2 /\ transits k (os j) (rs j) s)).
  { intros m j Hj. destruct (bs j) as [b|] eqn:Eb.
    - exists false. split; [apply (void_entry m j b Hj Eb (Gc j Hj))|]. split; [discriminate|]. intros [A _]. discriminate A.
    - destruct (G j Hj Eb) as (G2 & G3 & G4). destruct (circ_entry m j Hj Eb (Gc j Hj) G2 G3 G4) as (b & E & B). exists b. split; [exact E|]. rewrite B.
      split; [intro H; split; [reflexivity|exact H]|intros [_ H]; exact H]. }
  assert (FO : flags_ok n entry' = true).
  { unfold flags_ok. apply forallb_forall. intros j Hj. apply in_seq in Hj. destruct (M 0%nat j) as (b & -> & _); [lia|].
    cbn [snd feq0]. apply L_fl.Reqb_true. reflexivity. }
  rewrite FO in Hl. exists (picked n N entry'). split; [exact Ho|]. split; [exact Hl|]. split; [apply filter_seq_sorted|].
  intro m. rewrite in_picked'. split; intros [H1 H2]; (split; [exact H1|]).
  - destruct H2 as (j & Hj & E). destruct (M m j Hj) as (b & Eb & B). rewrite Eb in E. cbn in E. apply B in E.
    destruct E as (Hn & s & S1 & S2). exists j, s. auto.
  - destruct H2 as (j & s & Hj & Hn & S1 & S2). exists j. split; [exact Hj|]. destruct (M m j Hj) as (b & Eb & B). rewrite Eb. cbn. apply B. split; [exact Hn|]. exists s. auto.
Qed.

(** whatever the solver answers for unreachable planets *)
Lemma in_transit_mixed_ecc (al be : nat -> R) :
  (forall j, (j < n)%nat -> bs j = None -> ka_ecc (xs j) <> None /\ transit_interval k (os j) (rs j) (al j) (be j) /\ solved cp (os j) (rs j) (al j) (be j) /\
     al j + es j / 2 < o_period (os j) / 2 /\ be j + es j / 2 < o_period (os j) / 2) ->
  exists o l, kep_init k x = Ok o /\ kep_in_transit o (kep_warp o) (lift_cp cp) t r te false = Ok l /\ (forall m, In m l -> (m < N)%nat) /\
    forall m j s, (m < N)%nat -> (j < n)%nat -> bs j = None -> Rabs (s - ts m) <= es j / 2 -> transits k (os j) (rs j) s -> In m l.
Proof.
  intro G. destruct kin_mixed as (o & Ho & Hl). exists o. destruct (flags_ok n entry').
  - exists (picked n N entry'). split; [exact Ho|]. split; [exact Hl|]. split; [intros m Hm; apply in_picked' in Hm; apply Hm|].
    intros m j s Hm Hj Hb S1 S2. destruct (G j Hj Hb) as (G1 & G2 & G3 & G4 & G5). apply in_picked'. split; [exact Hm|]. exists j. split; [exact Hj|].
    apply (ecc_entry m j (al j) (be j)); try assumption. exists s. auto.
  - exists (seq 0 N). split; [exact Ho|]. split; [exact Hl|]. split; [intros m Hm; apply in_seq in Hm; lia|]. intros. apply in_seq. lia.
Qed.
End T.

(** ** masking *)
Lemma finds_reach k n x xs os bs o cp rs N t ts e : consts_ok k -> mixed_system k n x xs os bs -> kep_init k x = Ok o -> 0 <= pad_of e ->
  is_vector N t -> (forall m, (m < N)%nat -> aget t (at_time m) = Fin (ts m)) -> (forall j, (j < n)%nat -> 0 <= rs j) ->
  ((forall j, (j < n)%nat -> ka_ecc (xs j) = None) /\ (forall j, (j < n)%nat -> bs j = None -> o_r_star (os j) + rs j < o_a (os j) /\ 0 <= o_sin_incl (os j))) \/
  (exists al be, forall j, (j < n)%nat -> bs j = None -> ka_ecc (xs j) <> None /\ transit_interval k (os j) (rs j) (al j) (be j) /\ solved cp (os j) (rs j) (al j) (be j) /\
     al j + pad_of e / 2 < o_period (os j) / 2 /\ be j + pad_of e / 2 < o_period (os j) / 2) ->
  finds_transits (unnan_api (kep_api k (lift_cp cp) o)) false n (P' k os bs) (fun j => o_r_star (os j)) rs N t ts (one_texp e) (fun _ => pad_of e).
Proof.
  intros kok mix Ho He Ht Hts Hr0 G r Hr. cbn [unnan_api oa_in_transit kep_api].
  assert (V : forall j s b, bs j = Some b -> overlaps (P' k os bs j s) (rs j) (o_r_star (os j)) -> False).
  { intros j s b Hb [O _]. unfold P' in O. rewrite Hb in O. unfold vz in O. cbn [snd] in O. lra. }
  assert (W : forall j s, bs j = None -> overlaps (P' k os bs j s) (rs j) (o_r_star (os j)) -> transits k (os j) (rs j) s).
  { intros j s Hb O. apply overlaps_transits. unfold P' in O. rewrite Hb in O. exact O. }
  destruct G as [[Gc G]|(al & be & G)].
  - destruct (in_transit_mixed k n N x xs os bs r rs (one_texp e) (fun _ => pad_of e) t ts cp kok mix Hr (one_opt n e) (fun _ _ => He) Ht Hts Gc) as (o' & l & Ho' & El & _ & Il).
    { intros j Hj Hb. split; [apply Hr0, Hj|apply (G j Hj Hb)]. }
    rewrite Ho in Ho'. apply Ok_inj in Ho'. subst o'. exists l. split; [exact El|]. split; [intros m Hm; apply Il, Hm|].
    intros m j s Hm Hj Hs Hov. destruct (bs j) as [b|] eqn:Eb; [destruct (V j s b Eb Hov)|]. apply Il. split; [exact Hm|]. exists j, s. split; [exact Hj|]. split; [exact Eb|]. split; [exact Hs|apply W; assumption].
  - destruct (in_transit_mixed_ecc k n N x xs os bs r rs (one_texp e) (fun _ => pad_of e) t ts cp kok mix Hr (one_opt n e) (fun _ _ => He) Ht Hts al be G) as (o' & l & Ho' & El & Bl & Il).
    rewrite Ho in Ho'. apply Ok_inj in Ho'. subst o'. exists l. split; [exact El|]. split; [exact Bl|].
    intros m j s Hm Hj Hs Hov. destruct (bs j) as [b|] eqn:Eb; [destruct (V j s b Eb Hov)|]. apply (Il m j s Hm Hj Eb Hs). apply W; assumption.
Qed.
Lemma reach_masked : forall u1 u2 k n (x : kargs tens) xs os bs o cp r rs N t ts e os' order,
  disk_flux u1 u2 <> 0 -> consts_ok k -> mixed_system k n x xs os bs -> kep_init k x = Ok o ->
  elements n r rs -> (forall j, (j < n)%nat -> 0 <= rs j) -> is_vector N t -> (forall m, (m < N)%nat -> aget t (at_time m) = Fin (ts m)) ->
  0 <= pad_of e -> (0 <= os')%Z -> (order = 0 \/ order = 1 \/ order = 2)%Z ->
  ((forall j, (j < n)%nat -> ka_ecc (xs j) = None) /\ (forall j, (j < n)%nat -> bs j = None -> o_r_star (os j) + rs j < o_a (os j) /\ 0 <= o_sin_incl (os j))) \/
  (exists al be, forall j, (j < n)%nat -> bs j = None -> ka_ecc (xs j) <> None /\ transit_interval k (os j) (rs j) (al j) (be j) /\ solved cp (os j) (rs j) (al j) (be j) /\
     al j + pad_of e / 2 < o_period (os j) / 2 /\ be j + pad_of e / 2 < o_period (os j) / 2) ->
  exists X Y f, get_light_curve (ld_init (Fin u1) (Fin u2)) (Some (kep_api k (lift_cp cp) o)) (Some r) (Some t) (one_texp e) os' order (Some true) false = Ok X /\
    get_light_curve (ld_init (Fin u1) (Fin u2)) (Some (kep_api k (lift_cp cp) o)) (Some r) (Some t) (one_texp e) os' order (Some false) false = Ok Y /\
    light_table n N X f /\ light_table n N Y f.
Proof.
  intros u1 u2 k n x xs os bs o cp r rs N t ts e os' order Hd kok mix Ho Hr Hr0 Ht Hts He Hos Hor G.
  destruct (mixed_answers k n x xs os bs kok mix o (lift_cp cp) Ho) as [HA Hs].
  destruct (lc_masked u1 u2 (unnan_api (kep_api k (lift_cp cp) o)) false n (P' k os bs) (fun j => o_r_star (os j)) r rs N t ts (one_texp e) (fun _ => pad_of e) os' order) as (X & Y & f & EX & EY & TX & TY); try assumption.
  - intros j Hj. apply (ph_r_star _ (mixed_phys k n x xs os bs mix j Hj)).
  - apply one_exp.
  - intros; exact He.
  - apply (finds_reach k n x xs os bs o cp rs N t ts e); assumption.
  - rewrite unnan_light in EX, EY. exists X, Y, f. auto.
Qed.

(** ** one planet *)
Lemma reach_attributes : forall k (x : kargs R) o b, consts_ok k -> unreachable k x o b ->
  exists fo, kep_init k (fin_args x) = Ok fo /\
    o_b fo = Fin b /\ o_cos_incl fo = Fin (b * o_r_star o / separation o) /\ o_incl fo = NaN /\ o_sin_incl fo = NaN /\
    o_a fo = Fin (o_a o) /\ o_period fo = Fin (o_period o) /\ o_rho_star fo = Fin (o_rho_star o) /\ o_r_star fo = Fin (o_r_star o) /\
    o_m_star fo = Fin (o_m_star o) /\ o_m_planet fo = Fin (o_m_planet o) /\ o_t0 fo = Fin (o_t0 o) /\ o_tper fo = Fin (o_tper o) /\
    o_ecc fo = option_map (map_eccd Fin) (o_ecc o) /\ o_Omega fo = option_map (map_omgd Fin) (o_Omega o).
Proof.
  intros k x o b kok U. exists (beyond o b). split; [apply (unreachable_init k kok x o b U)|]. cbn [beyond o_a o_period o_rho_star o_r_star o_m_star o_m_planet o_Omega o_ecc o_b o_cos_incl o_incl o_sin_incl o_t0 o_tper].
  repeat (split; [try reflexivity|]); try reflexivity. f_equal. assert (S := separation_pos o (ur_phys _ _ _ _ U)). rewrite (dcosidb_sep k kok _ o (ur_init _ _ _ _ U) (ur_phys _ _ _ _ U)). field. lra.
Qed.
Lemma reach_domain : forall k (x : kargs R) o b, consts_ok k -> ka_b x = Some b -> ka_incl x = None -> ka_duration x = None ->
  kep_init k (set_incl x (Some 0) None) = Ok o -> physical o -> Rabs b * o_r_star o <= separation o ->
  exists o', kep_init k x = Ok o' /\ physical o' /\ kep_init k (fin_args x) = Ok (fin_orbit o') /\
    o_cos_incl o' = b * o_r_star o / separation o.
Proof. intros k x o b kok. exact (reachable_init k kok x o b). Qed.
Lemma reach_position : forall k (x : kargs R) o b fo t, consts_ok k -> unreachable k x o b -> kep_init k (fin_args x) = Ok fo ->
  let p := pos k o Relative t None false in let y := vz p * (b * o_r_star o / separation o) in
  pos k fo Relative (Fin t) None false = (Fin (vx p + sinO_of o * y), Fin (vy p - cosO_of o * y), NaN).
Proof.
  intros k x o b fo t kok U H. cbv zeta. rewrite (unreachable_init k kok x o b U) in H. apply Ok_inj in H. subst fo. assert (ph := ur_phys _ _ _ _ U).
  assert (E : forall v : R * R * R, sqz3 v = v) by (intros [[? ?] ?]; reflexivity).
  assert (E' : forall v : fl * fl * fl, sqz3 v = v) by (intros [[? ?] ?]; reflexivity).
  unfold pos, get_relative_position. rewrite E, E'. unfold get_position. change (- o_a (beyond o b))%num with (Fin (- o_a o)).
  rewrite (pos_beyond k o b ph (edge_on _ _ _ _ U) (kep_warp o)) by (intros pad s; apply (kep_warp_fin o pad s)).
  assert (S := separation_pos o ph). unfold seen. cbv zeta. rewrite (dcosidb_sep k kok _ o (ur_init _ _ _ _ U) ph). change (@nneg R bool NumR (o_a o)) with (- o_a o).
  f_equal. f_equal; f_equal; field; lra.
Qed.
Lemma reach_velocity : forall k (x : kargs R) o b fo t, consts_ok k -> unreachable k x o b -> kep_init k (fin_args x) = Ok fo ->
  (forall u v, get_radial_velocity k fo (kep_warp fo) (Fin t) None u = Ok v -> v = NaN) /\
  (forall K u, get_radial_velocity k fo (kep_warp fo) (Fin t) (Some (Fin K)) u = rmap Fin (get_radial_velocity k o (kep_warp o) t (Some K) u)) /\
  forall bd, snd (vel fo bd (Fin t)) = NaN.
Proof.
  intros k x o b fo t kok U H. rewrite (unreachable_init k kok x o b U) in H. apply Ok_inj in H. subst fo. assert (ph := ur_phys _ _ _ _ U).
  assert (W : forall pad s, kep_warp (beyond o b) pad (Fin s) = Fin (kep_warp o pad s)) by (intros pad s; apply (kep_warp_fin o pad s)).
  assert (Vz : forall m, snd (get_velocity (beyond o b) (kep_warp (beyond o b)) (Fin m) (Fin t)) = NaN).
  { intro m. apply (vel_beyond o b ph (edge_on _ _ _ _ U) (kep_warp o) _ W). }
  assert (V3 : forall v : fl * fl * fl, snd v = NaN -> snd (sqz3 v) = NaN) by (intros [[? ?] ?]; exact (fun e => e)).
  split; [|split].
  - intros u v Hv. unfold get_radial_velocity in Hv. destruct (uto _ _) as [c|]; [|discriminate Hv]. cbn [rbind] in Hv.
    assert (A : snd (get_star_velocity (beyond o b) (kep_warp (beyond o b)) (Fin t)) = NaN).
    { unfold get_star_velocity. apply V3. apply Vz. }
    destruct (get_star_velocity _ _ _) as [[? ?] q]. cbn [snd] in A. subst q. apply Ok_inj in Hv. subst v. reflexivity.
  - intros K u. unfold get_radial_velocity. rewrite ta_beyond, (ta_fin o ph (kep_warp o) _ W). destruct (true_anomaly o (kep_warp o) true t) as [s c].
    cbn [fst snd rmap beyond o_ecc]. f_equal. destruct (o_ecc o) as [d|]; reflexivity.
  - intros [| |]; cbn [vel]; unfold get_planet_velocity, get_star_velocity, get_relative_velocity; apply V3; apply Vz.
Qed.
Lemma reach_in_transit : forall k n N (x : kargs tens) xs os bs r rs te es t ts cp,
  consts_ok k -> mixed_system k n x xs os bs -> planet_values n r rs -> opt_values n te es -> (forall j, (j < n)%nat -> 0 <= es j) ->
  is_vector N t -> (forall m, (m < N)%nat -> aget t (at_time m) = Fin (ts m)) ->
  (forall j, (j < n)%nat -> ka_ecc (xs j) = None) ->
  (forall j, (j < n)%nat -> bs j = None -> 0 <= rs j /\ o_r_star (os j) + rs j < o_a (os j) /\ 0 <= o_sin_incl (os j)) ->
  exists o l, kep_init k x = Ok o /\
    kep_in_transit o (kep_warp o) (lift_cp cp) t r te false = Ok l /\ StronglySorted lt l /\
    forall m, In m l <-> (m < N)%nat /\ exists j s, (j < n)%nat /\ bs j = None /\ Rabs (s - ts m) <= es j / 2 /\ transits k (os j) (rs j) s.
Proof. intros k n N x xs os bs r rs te es t ts cp kok mix Hr He Hp Ht Hts. exact (in_transit_mixed k n N x xs os bs r rs te es t ts cp kok mix Hr He Hp Ht Hts). Qed.
Lemma reach_in_transit_ecc : forall k n N (x : kargs tens) xs os bs r rs te es t ts cp al be,
  consts_ok k -> mixed_system k n x xs os bs -> planet_values n r rs -> opt_values n te es -> (forall j, (j < n)%nat -> 0 <= es j) ->
  is_vector N t -> (forall m, (m < N)%nat -> aget t (at_time m) = Fin (ts m)) ->
  (forall j, (j < n)%nat -> bs j = None -> ka_ecc (xs j) <> None /\ transit_interval k (os j) (rs j) (al j) (be j) /\ solved cp (os j) (rs j) (al j) (be j) /\
     al j + es j / 2 < o_period (os j) / 2 /\ be j + es j / 2 < o_period (os j) / 2) ->
  exists o l, kep_init k x = Ok o /\ kep_in_transit o (kep_warp o) (lift_cp cp) t r te false = Ok l /\ (forall m, In m l -> (m < N)%nat) /\
    forall m j s, (m < N)%nat -> (j < n)%nat -> bs j = None -> Rabs (s - ts m) <= es j / 2 -> transits k (os j) (rs j) s -> In m l.
Proof. intros k n N x xs os bs r rs te es t ts cp al be kok mix Hr He Hp Ht Hts. exact (in_transit_mixed_ecc k n N x xs os bs r rs te es t ts cp kok mix Hr He Hp Ht Hts al be). Qed.
