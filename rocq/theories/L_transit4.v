(** * in_transit for systems of planets, assembled *)
From Coq Require Import Reals List Bool Arith ZArith Lra Lia Psatz Sorted.
From Verif Require Import Num CoreOps Inst M_units M_kepler M_fin M_tensor Spec_orbit Spec_params Spec_array
  L_real L_orbit L_params3 L_params4 L_fl L_fl2 L_fl3 L_tens L_shape L_transit L_transit2 L_transit3.
Import ListNotations.
Open Scope R_scope.

Lemma kep_circ k (x : kargs R) o : kep_init k x = Ok o -> (o_ecc o = None <-> ka_ecc x = None).
Proof.
  intro H. unfold kep_init in H.
  destruct (kep_units x) as [[mpl rho]|]; [cbn [rbind] in H|discriminate H].
  destruct (kep_duration x) as [[[[a rs] dur] dao]|]; [cbn [rbind] in H|discriminate H].
  destruct (consistent_inputs k _ _ _ _ _ _) as [[[[[[A P] RHO] RS] MS] MP]|]; [cbn [rbind] in H|discriminate H].
  destruct (kep_omega x) as [ed|] eqn:E; [cbn [rbind] in H|discriminate H].
  destruct (kep_incl _ _ _ _ _ _ _ _ _ _) as [[[[b ci] inc] da]|]; [cbn [rbind] in H|discriminate H].
  destruct (kep_times _ _ _ _) as [[t0 tp]|]; [cbn [rbind] in H|discriminate H].
  apply Ok_inj in H. subst o. cbn [o_ecc].
  unfold kep_omega in E. destruct (ka_ecc x) as [e|].
  - split; [intros ->|discriminate]. exfalso. revert E.
    destruct (ka_omega x), (ka_sin_omega x), (ka_cos_omega x); cbn; discriminate.
  - apply Ok_inj in E. subst ed. split; auto.
Qed.

Section S.
Variables (k : consts) (n N : nat) (x : kargs tens) (xs : nat -> kargs R) (os : nat -> orbit R).
Variables (r : tens) (rs : nat -> R) (te : option tens) (es : nat -> R) (t : tens) (ts : nat -> R).
Variable cp : fl -> fl -> fl -> fl -> fl -> fl -> fl -> fl * fl * fl.
Hypothesis kok : consts_ok k.
Hypothesis sys : system k n x xs os.
Hypothesis Hr : planet_values n r rs.
Hypothesis He : opt_values n te es.
Hypothesis Hpos : forall j, (j < n)%nat -> 0 <= es j.
Hypothesis Ht : is_vector N t.
Hypothesis Hts : forall m, (m < N)%nat -> aget t (at_time m) = Fin (ts m).

Lemma val_at a v i : planet_values n a v -> (i O < n)%nat -> aget a i = Fin (v (i O)).
Proof. intros [P E] Hi. rewrite (sn_at n a i (pp_sn n a P)). apply E. exact Hi. Qed.
Lemma time_at' j m : (m < N)%nat -> aget t (fun d => cons_ix j (cons_ix m ix0) (S d)) = Fin (ts m).
Proof.
  intro Hm. rewrite <- (Hts m Hm). destruct Ht as [W E]. apply (W _ E).
  intros d Hd. destruct d as [|d]; [reflexivity|]. destruct d; cbn in Hd; contradiction.
Qed.
Definition te_of (j : nat) : option R := match te with None => None | Some _ => Some (es j) end.
Lemma te_pad j : pad_of (te_of j) = es j.
Proof. unfold te_of. destruct te; [reflexivity|]. cbn in He. rewrite He. reflexivity. Qed.
Lemma te_at i : (i O < n)%nat -> option_map (fun a : tens => aget a i) te = option_map Fin (te_of (i O)).
Proof.
  intro Hi. unfold te_of. destruct te as [a|]; [|reflexivity]. cbn in He |- *. rewrite (val_at a es i He Hi). reflexivity.
Qed.
Lemma te_sn : OSn n te.
Proof. destruct te as [a|]; [|exact I]. apply pp_sn. apply He. Qed.

(** the mask of one time and planet *)
Definition the_entry (m j : nat) : bool * fl :=
  transit_mask (fin_orbit (os j)) (kep_warp (fin_orbit (os j))) cp (Fin (ts m)) (Fin (rs j)) (option_map Fin (te_of j)).

Lemma kin_system : exists o, kep_init k x = Ok o /\
  kep_in_transit o (kep_warp o) (lift_cp cp) t r te false
    = Ok (if flags_ok n the_entry then picked n N the_entry else seq 0 N).
Proof.
  destruct (system_orbit k n x xs os kok sys) as (o & Ho & So & Eno & Epo & At). exists o. split; [exact Ho|].
  assert (Hw : T1 n N (kep_warp o true t)).
  { apply (T1_map2l n N fsub); [apply padr_T1; apply Ht|apply (os_t0 _ _ So)]. }
  destruct (Nat.eq_dec N 0) as [E|E].
  - rewrite (kin_nil n N o So Eno Epo (kep_warp o) t (proj2 Ht) Hw cp r te (pp_sn _ _ (proj1 Hr)) te_sn E).
    unfold picked. rewrite E. cbn. destruct (flags_ok n the_entry); reflexivity.
  - apply (kin_list n N o So Eno Epo (sy_n _ _ _ _ _ sys) (kep_warp o) t (proj2 Ht) Hw cp r te (pp_sn _ _ (proj1 Hr)) te_sn
      the_entry (fun i => kep_warp (orbit_at i o))); [intro i; apply kep_warp_at1| |lia].
    intros m j Hm Hj i. unfold the_entry. assert (Hi : (i O < n)%nat) by exact Hj.
    rewrite (At i Hi). unfold i at 3. rewrite (time_at' j m Hm). rewrite (val_at r rs i Hr Hi), (te_at i Hi). reflexivity.
Qed.

Lemma in_picked m : In m (picked n N the_entry) <-> (m < N)%nat /\ exists j, (j < n)%nat /\ fst (the_entry m j) = true.
Proof.
  unfold picked. rewrite filter_In, in_seq, existsb_exists. split.
  - intros [H1 (j & Hj & E)]. apply in_seq in Hj. split; [lia|]. exists j. split; [lia|exact E].
  - intros [H1 (j & Hj & E)]. split; [lia|]. exists j. split; [apply in_seq; lia|exact E].
Qed.

Lemma in_transit_circ :
  (forall j, (j < n)%nat -> ka_ecc (xs j) = None /\ 0 <= rs j /\ o_r_star (os j) + rs j < o_a (os j) /\ 0 <= o_sin_incl (os j)) ->
  exists o l, kep_init k x = Ok o /\
    kep_in_transit o (kep_warp o) (lift_cp cp) t r te false = Ok l /\ StronglySorted lt l /\
    forall m, In m l <-> (m < N)%nat /\ exists j s, (j < n)%nat /\ Rabs (s - ts m) <= es j / 2 /\ transits k (os j) (rs j) s.
Proof.
  intro G. destruct kin_system as (o & Ho & Hl). exists o.
  assert (M : forall m j, (j < n)%nat -> exists b, the_entry m j = (b, Fin 0) /\
     (b = true <-> exists s, Rabs (s - ts m) <= es j / 2 /\ transits k (os j) (rs j) s)).
  { intros m j Hj. destruct (G j Hj) as (G1 & G2 & G3 & G4).
    assert (Hi := sy_init _ _ _ _ _ sys j Hj). assert (Hp := sy_phys _ _ _ _ _ sys j Hj).
    destruct (mask_circ k kok (xs j) (os j) Hi Hp (proj2 (kep_circ k _ _ Hi) G1) (rs j) (kep_warp (fin_orbit (os j))) cp (Fin (ts m))
      (ts m - o_t0 (os j)) (kep_warp_fin (os j) true (ts m)) (te_of j) G2 G3 G4) as (b & E & B).
    { rewrite te_pad. apply Hpos, Hj. }
    exists b. split; [exact E|]. rewrite B, te_pad. split; intros (s & S1 & S2).
    - exists (o_t0 (os j) + s). split; [|exact S2]. replace (o_t0 (os j) + s - ts m) with (s - (ts m - o_t0 (os j))) by ring. exact S1.
    - exists (s - o_t0 (os j)). split; [replace (s - o_t0 (os j) - (ts m - o_t0 (os j))) with (s - ts m) by ring; exact S1|].
      replace (o_t0 (os j) + (s - o_t0 (os j))) with s by ring. exact S2. }
  assert (FO : flags_ok n the_entry = true).
  { unfold flags_ok. apply forallb_forall. intros j Hj. apply in_seq in Hj. destruct (M 0%nat j) as (b & -> & _); [lia|].
    cbn [snd feq0]. apply L_fl.Reqb_true. reflexivity. }
  rewrite FO in Hl. exists (picked n N the_entry). split; [exact Ho|]. split; [exact Hl|]. split; [apply filter_seq_sorted|].
  intro m. rewrite in_picked. split; intros [H1 H2]; (split; [exact H1|]).
  - destruct H2 as (j & Hj & E). destruct (M m j Hj) as (b & Eb & B). rewrite Eb in E. cbn in E. apply B in E.
    destruct E as (s & S1 & S2). exists j, s. auto.
  - destruct H2 as (j & s & Hj & S1 & S2). exists j. split; [exact Hj|]. destruct (M m j Hj) as (b & Eb & B). rewrite Eb. cbn. apply B. exists s. auto.
Qed.

(** eccentric orbits: what the solver is asked for planet j *)
Notation solver j := (solver_answer cp (os j) (rs j)).

Lemma entry_flag m j d : o_ecc (os j) = Some d -> snd (the_entry m j) = snd (solver j).
Proof.
  intro E. unfold the_entry, solver_answer, transit_mask, transit_window.
  cbn [fin_orbit map_orbit o_ecc o_a o_r_star o_period o_b o_sin_incl o_cos_incl o_M0 o_n]. rewrite E.
  cbn [option_map map_eccd e_ecc e_cosw e_sinw]. fn. rewrite !Rplus_0_r.
  destruct (cp _ _ _ _ _ _ _) as [[? ?] f]. reflexivity.
Qed.

Lemma in_transit_flag j : (j < n)%nat -> o_ecc (os j) <> None -> snd (solver j) <> Fin 0 ->
  exists o, kep_init k x = Ok o /\ kep_in_transit o (kep_warp o) (lift_cp cp) t r te false = Ok (seq 0 N).
Proof.
  intros Hj He' Hf. destruct kin_system as (o & Ho & Hl). exists o. split; [exact Ho|]. rewrite Hl.
  destruct (flags_ok n the_entry) eqn:FO; [|reflexivity]. exfalso.
  unfold flags_ok in FO. rewrite forallb_forall in FO. specialize (FO j ltac:(apply in_seq; lia)).
  destruct (o_ecc (os j)) as [d|] eqn:E; [|contradiction]. rewrite (entry_flag 0 j d E) in FO.
  destruct (snd (solver j)) as [v|?|]; cbn in FO; try discriminate FO.
  apply L_real.Reqb_true in FO. apply Hf. rewrite FO. reflexivity.
Qed.

Lemma in_transit_ecc (al be : nat -> R) :
  (forall j, (j < n)%nat -> ka_ecc (xs j) <> None /\ 0 <= al j /\ 0 <= be j /\
     al j + es j / 2 < o_period (os j) / 2 /\ be j + es j / 2 < o_period (os j) / 2 /\ solved cp (os j) (rs j) (al j) (be j)) ->
  exists o l, kep_init k x = Ok o /\
    kep_in_transit o (kep_warp o) (lift_cp cp) t r te false = Ok l /\ StronglySorted lt l /\
    forall m, In m l <-> (m < N)%nat /\ exists j (q : Z) s, (j < n)%nat /\ Rabs (s - ts m) <= es j / 2 /\
       o_t0 (os j) + IZR q * o_period (os j) - al j <= s <= o_t0 (os j) + IZR q * o_period (os j) + be j.
Proof.
  intro G. destruct kin_system as (o & Ho & Hl). exists o.
  assert (M : forall m j, (j < n)%nat -> exists b, the_entry m j = (b, Fin 0) /\
     (b = true <-> exists (q : Z) s, Rabs (s - ts m) <= es j / 2 /\
       o_t0 (os j) + IZR q * o_period (os j) - al j <= s <= o_t0 (os j) + IZR q * o_period (os j) + be j)).
  { intros m j Hj. destruct (G j Hj) as (G1 & G2 & G3 & G4 & G5 & (m1 & m2 & G6)).
    assert (Hi := sy_init _ _ _ _ _ sys j Hj). assert (Hp := sy_phys _ _ _ _ _ sys j Hj).
    assert (F := kep_init_facts k kok (xs j) (os j) Hi Hp).
    unfold solver_answer in G6. destruct (o_ecc (os j)) as [d|] eqn:E.
    2:{ exfalso. apply G1. apply (kep_circ k _ _ Hi). exact E. }
    assert (P := ph_period _ Hp). assert (Hpi := PI_RGT_0). assert (He0 := Hpos j Hj).
    assert (EM : o_M0 (os j) = 2 * PI / o_period (os j) * (o_t0 (os j) - o_tper (os j))).
    { rewrite (of_t0 _ _ _ F), (of_n _ _ _ F). field. split; lra. }
    destruct (mask_ecc k kok (xs j) (os j) Hi Hp d E (rs j) (kep_warp (fin_orbit (os j))) cp (Fin (ts m)) (ts m - o_t0 (os j))
      (kep_warp_fin (os j) true (ts m)) (te_of j) (al j) (be j) m1 m2 (Fin 0)) as (b & Eb & B); try assumption.
    { rewrite G6. rewrite EM, (of_n _ _ _ F). f_equal; f_equal; f_equal; field; lra. }
    { rewrite te_pad. exact He0. }
    { rewrite te_pad. exact G4. }
    { rewrite te_pad. exact G5. }
    exists b. split; [exact Eb|]. rewrite B, te_pad. split.
    - intros (q & Q1 & Q2).
      set (lo := o_t0 (os j) + IZR q * o_period (os j) - al j). set (hi := o_t0 (os j) + IZR q * o_period (os j) + be j).
      exists q, (Rmax lo (Rmin hi (ts m))). fold lo hi.
      assert (L : lo <= hi) by (unfold lo, hi; lra).
      assert (L1 : lo - es j / 2 <= ts m <= hi + es j / 2) by (unfold lo, hi; lra).
      clearbody lo hi. unfold Rmax, Rmin. destruct (Rle_dec hi (ts m)); destruct (Rle_dec lo _); (split; [apply Rabs_le; lra|lra]).
    - intros (q & s & S1 & S2). apply Rabs_le_between in S1. exists q. lra. }
  assert (FO : flags_ok n the_entry = true).
  { unfold flags_ok. apply forallb_forall. intros j Hj. apply in_seq in Hj. destruct (M 0%nat j) as (b & -> & _); [lia|].
    cbn [snd feq0]. apply L_fl.Reqb_true. reflexivity. }
  rewrite FO in Hl. exists (picked n N the_entry). split; [exact Ho|]. split; [exact Hl|]. split; [apply filter_seq_sorted|].
  intro m. rewrite in_picked. split; intros [H1 H2]; (split; [exact H1|]).
  - destruct H2 as (j & Hj & E). destruct (M m j Hj) as (b & Eb & B). rewrite Eb in E. cbn in E. apply B in E.
    destruct E as (q & s & S1 & S2). exists j, q, s. auto.
  - destruct H2 as (j & q & s & Hj & S1 & S2). exists j. split; [exact Hj|]. destruct (M m j Hj) as (b & Eb & B). rewrite Eb. cbn. apply B. exists q, s. auto.
Qed.
End S.

Section E.
Variables (k : consts) (n N : nat) (x : kargs tens) (xs : nat -> kargs R) (os : nat -> orbit R).
Variables (r : tens) (rs : nat -> R) (te : option tens) (es : nat -> R) (t : tens) (ts : nat -> R).
Variable cp : fl -> fl -> fl -> fl -> fl -> fl -> fl -> fl * fl * fl.
Hypothesis kok : consts_ok k.
Hypothesis sys : system k n x xs os.
Hypothesis Hr : planet_values n r rs.
Hypothesis He : opt_values n te es.
Hypothesis Hpos : forall j, (j < n)%nat -> 0 <= es j.
Hypothesis Ht : is_vector N t.
Hypothesis Hts : forall m, (m < N)%nat -> aget t (at_time m) = Fin (ts m).

Lemma in_transit_exact (al be : nat -> R) :
  (forall j, (j < n)%nat -> ka_ecc (xs j) <> None /\ transit_interval k (os j) (rs j) (al j) (be j) /\
     solved cp (os j) (rs j) (al j) (be j) /\
     al j + es j / 2 < o_period (os j) / 2 /\ be j + es j / 2 < o_period (os j) / 2) ->
  exists o l, kep_init k x = Ok o /\
    kep_in_transit o (kep_warp o) (lift_cp cp) t r te false = Ok l /\ StronglySorted lt l /\
    forall m, In m l <-> (m < N)%nat /\ exists j s, (j < n)%nat /\ Rabs (s - ts m) <= es j / 2 /\ transits k (os j) (rs j) s.
Proof.
  intro G. destruct (in_transit_ecc k n N x xs os r rs te es t ts cp kok sys Hr He Hpos Ht Hts al be) as (o & l & H1 & H2 & H3 & H4).
  { intros j Hj. destruct (G j Hj) as (G1 & (G2 & G3 & _) & G5 & G6 & G7). repeat (split; [assumption|]). assumption. }
  exists o, l. split; [exact H1|]. split; [exact H2|]. split; [exact H3|]. intro m. rewrite H4. split; intros [Hm E]; (split; [exact Hm|]).
  - destruct E as (j & q & s & Hj & S1 & S2). destruct (G j Hj) as (_ & (_ & _ & G4) & _).
    exists j, s. split; [exact Hj|]. split; [exact S1|]. apply G4. exists q. exact S2.
  - destruct E as (j & s & Hj & S1 & S2). destruct (G j Hj) as (_ & (_ & _ & G4) & _).
    apply G4 in S2. destruct S2 as (q & S2). exists j, q, s. auto.
Qed.
End E.
