(** * TTVOrbit: in_transit and light curves *)
From Coq Require Import Reals List Bool Arith ZArith Lra Lia Psatz Sorted String.
From Verif Require Import Num CoreOps Inst CoreFlux M_units M_kepler M_kwargs M_fin M_tensor M_ttv M_limbdark Spec_orbit Spec_params Spec_array Spec_ttv Spec_light
  L_real L_orbit L_fl L_fl2 L_fl3 L_fl4 L_tens L_shape L_shapeS L_params3 L_params4 L_transit L_transit2 L_transit3 L_transit4 L_array L_ptransit L_light1 L_light2 L_light3 L_light4 L_light7 L_light8
  L_ttv1 L_ttv2 L_ttv3.
Import ListNotations.
Open Scope R_scope.
Local Notation length := List.length.

Lemma nearest_unique l t u v : nearest l t u -> nearest l t v -> u = v.
Proof.
  intros [I1 N1] [I2 N2]. destruct (N1 v I2) as [A1 A2]. destruct (N2 u I1) as [B1 B2].
  assert (E : Rabs (t - u) = Rabs (t - v)) by lra. specialize (A2 E). specialize (B2 (eq_sym E)). lra.
Qed.

Section T.
Variables (k : consts) (n : nat) (o : ttvorbit) (os : nat -> orbit R) (tts : nat -> list R) (near : nat -> R -> R).
Hypothesis kok : consts_ok k.
Hypothesis sys : ttv_system k n o os tts.
Hypothesis Hnear : nearest_transits n tts near.

Lemma look_near j u : (j < n)%nat -> look o j (Fin u) = Fin (near j u).
Proof.
  intro Hj. destruct (look_ok k n o os tts sys j u Hj) as (v & E & H). rewrite E. f_equal.
  apply (nearest_unique (tts j) u); [exact H|apply Hnear, Hj].
Qed.

Lemma w'_T1S s u : ash u = Ok s -> T1S n s (w' o true u).
Proof.
  intro E. right. cbn [w']. unfold ttv_warp, ttv_model_dt. cbn. destruct (n_len k n o os tts sys) as [L _]. rewrite L, E.
  assert (Hn := n_pos k n o os tts sys). destruct (Nat.eqb_spec n 0); [lia|].
  cbn [rmap bcr]. rewrite bcS_1N. reflexivity.
Qed.
Lemma w'_ENS s u : ENS n s u -> ENS n s (w' o false u).
Proof.
  intro E. destruct (under k n o os tts sys) as (x & xs & Hx & Sy). destruct (system_orbit k n x xs os kok Sy) as (o' & Ho & A & _).
  rewrite Hx in Ho. apply Ok_inj in Ho. subst o'. apply (ENS_map2l n s fsub); [exact E|apply (os_t0 _ _ A)].
Qed.

Lemma ttv_answers cp : answers (ttv_api k cp o) false n (fun j t => pos k (os j) Relative (orbit_time os near j t) None false) /\
  planet_numbers n (oa_r_star (ttv_api k cp o)) (fun j => o_r_star (os j)).
Proof.
  destruct (under k n o os tts sys) as (x & xs & Hx & Sy). destruct (system_orbit k n x xs os kok Sy) as (o' & Ho & So & Eno & Epo & Oat).
  rewrite Hx in Ho. apply Ok_inj in Ho. subst o'. split.
  - intros s t ts Et Wt Vt. cbn [oa_pos ttv_api]. unfold get_relative_position, get_position.
    change (position_nodelay k (tt_orbit o) (ttv_warp o) (- o_a (tt_orbit o))%num t None true)
      with (position_nodelay k (tt_orbit o) (w' o) (- o_a (tt_orbit o))%num t None true).
    assert (Sa : Sn n (- o_a (tt_orbit o))%num) by apply (Sn_map n fneg), (os_a _ _ So).
    assert (Sh := pos_nd_shapeS n s k (tt_orbit o) So Eno (w' o) (w'_T1S s) (w'_ENS s) (- o_a (tt_orbit o))%num t None true Sa I Et _ eq_refl).
    assert (Va : forall i, (i O < n)%nat -> map_vec (fun a : tens => aget a i) (position_nodelay k (tt_orbit o) (w' o) (- o_a (tt_orbit o))%num t None true)
       = position_nodelay k (fin_orbit (os (i O))) (wj o os (i O)) (- o_a (fin_orbit (os (i O))))%num (aget t (fun d => i (S d))) None true).
    { intros i Hi.
      assert (Hw1 : forall u, aget (w' o true u) i = wj o os (i O) true (aget u (fun d => i (S d)))) by (intro u; apply (warp_at1 k n o os tts sys i u Hi)).
      assert (Hw0 : forall u, aget (w' o false u) i = wj o os (i O) false (aget u i)).
      { intro u. cbn [w' wj]. rewrite kep_warp_at0, (Oat i Hi). reflexivity. }
      etransitivity; [apply (pos_nd_at k i (tt_orbit o) (w' o) (wj o os (i O)) Hw1 Hw0)|]. rewrite (Oat i Hi). cbn [option_map].
      replace (aget (- o_a (tt_orbit o))%num i) with (- o_a (fin_orbit (os (i O))))%num; [reflexivity|]. rewrite <- (Oat i Hi). reflexivity. }
    destruct (position_nodelay k (tt_orbit o) (w' o) (- o_a (tt_orbit o))%num t None true) as [[X Y] Z]. cbn [fst snd] in Sh. destruct Sh as (SX & SY & SZ).
    exists (asqz X), (asqz Y), (asqz Z), (squeezed (n :: s)). split; [reflexivity|].
    apply (answers_of n s t ts X Y Z (fun j t => pos k (os j) Relative (orbit_time os near j t) None false) Et Wt Vt SX SY SZ).
    intros i tt Hi Htt. specialize (Va i Hi). rewrite Htt in Va.
    assert (F := system_fin_pos k n x xs os kok Sy (i O) (orbit_time os near (i O) tt) Relative Hi).
    rewrite <- F. etransitivity; [exact Va|]. unfold pos, get_relative_position, get_position. rewrite sqz3_F. unfold position_nodelay.
    rewrite (ta_congr (fin_orbit (os (i O))) (wj o os (i O)) (kep_warp (fin_orbit (os (i O)))) (Fin tt) (Fin (orbit_time os near (i O) tt))); [reflexivity|].
    cbn [wj]. rewrite (look_near (i O) tt Hi). unfold orbit_time. cbn. f_equal. ring.
  - cbn [oa_r_star ttv_api]. split; [destruct (os_r _ _ So) as [[E _]|[E _]]; [left|right]; exact E|].
    intros i Hi. assert (E := Oat i Hi). apply (f_equal (fun o => o_r_star o)) in E. exact E.
Qed.

(** ** in_transit *)
Section I.
Variables (N : nat) (r : tens) (rs : nat -> R) (te : option tens) (es : nat -> R) (t : tens) (ts : nat -> R).
Variable cp : fl -> fl -> fl -> fl -> fl -> fl -> fl -> fl * fl * fl.
Hypothesis Hr : planet_values n r rs.
Hypothesis He : opt_values n te es.
Hypothesis Hpos : forall j, (j < n)%nat -> 0 <= es j.
Hypothesis Ht : is_vector N t.
Hypothesis Hts : forall m, (m < N)%nat -> aget t (at_time m) = Fin (ts m).

Definition tentry (m j : nat) : bool * fl :=
  transit_mask (fin_orbit (os j)) (fun _ u => fsub u (look o j u)) cp (Fin (ts m)) (Fin (rs j)) (option_map Fin (te_of te es j)).

Lemma tkin : oa_in_transit (ttv_api k (lift_cp cp) o) t r te false = Ok (if flags_ok n tentry then picked n N tentry else seq 0 N).
Proof.
  cbn [oa_in_transit ttv_api].
  destruct (under k n o os tts sys) as (x & xs & Hx & Sy). destruct (system_orbit k n x xs os kok Sy) as (o' & Ho & So & Eno & Epo & Oat).
  rewrite Hx in Ho. apply Ok_inj in Ho. subst o'.
  assert (Hw : T1 n N (ttv_warp o true t)) by apply (w'_T1 k n N o os tts sys t (proj2 Ht)).
  assert (Sr := pp_sn _ _ (proj1 Hr)). assert (Ste := te_sn n te es He).
  destruct (Nat.eq_dec N 0) as [E|E].
  - rewrite (kin_nil n N (tt_orbit o) So Eno Epo (ttv_warp o) t (proj2 Ht) Hw cp r te Sr Ste E).
    unfold picked. rewrite E. cbn. destruct (flags_ok n tentry); reflexivity.
  - pose (wf := fun (i : idx) (_ : bool) (u : fl) => fsub u (look o (if Nat.eqb n 1 then 0%nat else i O) u)).
    apply (kin_list n N (tt_orbit o) So Eno Epo (sy_n _ _ _ _ _ Sy) (ttv_warp o) t (proj2 Ht) Hw cp r te Sr Ste tentry wf); [| |lia].
    + intro i. unfold wf, ttv_warp, ttv_model_dt, look. destruct (n_len k n o os tts sys) as [L _]. rewrite L. cbn.
      destruct (Nat.eqb n 1); reflexivity.
    + intros m j Hm Hj i. unfold tentry. assert (Hi : (i O < n)%nat) by exact Hj.
      rewrite (Oat i Hi). unfold i at 3. rewrite (time_at' N t ts Ht Hts j m Hm). rewrite (val_at n r rs i Hr Hi), (te_at n te es He i Hi).
      unfold wf. change (i O) with j. destruct (Nat.eqb_spec n 1) as [E1|E1]; [|reflexivity]. replace j with 0%nat by lia. reflexivity.
Qed.

Lemma in_tpicked m : In m (picked n N tentry) <-> (m < N)%nat /\ exists j, (j < n)%nat /\ fst (tentry m j) = true.
Proof.
  unfold picked. rewrite filter_In, in_seq, existsb_exists. split.
  - intros [H1 (j & Hj & E)]. apply in_seq in Hj. split; [lia|]. exists j. split; [lia|exact E].
  - intros [H1 (j & Hj & E)]. split; [lia|]. exists j. split; [apply in_seq; lia|exact E].
Qed.
Lemma tlist (C : nat -> nat -> Prop) : (forall m j, (j < n)%nat -> exists b, tentry m j = (b, Fin 0) /\ (b = true <-> C m j)) ->
  exists l, oa_in_transit (ttv_api k (lift_cp cp) o) t r te false = Ok l /\ StronglySorted lt l /\
    forall m, In m l <-> (m < N)%nat /\ exists j, (j < n)%nat /\ C m j.
Proof.
  intro M. assert (FO : flags_ok n tentry = true).
  { unfold flags_ok. apply forallb_forall. intros j Hj. apply in_seq in Hj. destruct (M 0%nat j) as (b & -> & _); [lia|].
    cbn [snd feq0]. apply L_fl.Reqb_true. reflexivity. }
  exists (picked n N tentry). rewrite tkin, FO. split; [reflexivity|]. split; [apply filter_seq_sorted|].
  intro m. rewrite in_tpicked. split; intros [H1 H2]; (split; [exact H1|]).
  - destruct H2 as (j & Hj & E). destruct (M m j Hj) as (b & Eb & B). rewrite Eb in E. cbn in E. apply B in E. exists j. auto.
  - destruct H2 as (j & Hj & S1). exists j. split; [exact Hj|]. destruct (M m j Hj) as (b & Eb & B). rewrite Eb. cbn. apply B. exact S1.
Qed.
Lemma twarp m j : (j < n)%nat -> (fun (_ : bool) u => fsub u (look o j u)) true (Fin (ts m)) = Fin (ts m - near j (ts m)).
Proof. intro Hj. cbv beta. rewrite (look_near j _ Hj). reflexivity. Qed.

Lemma ttv_in_circ :
  (forall j, (j < n)%nat -> o_ecc (os j) = None /\ 0 <= rs j /\ o_r_star (os j) + rs j < o_a (os j) /\ 0 <= o_sin_incl (os j)) ->
  exists l, oa_in_transit (ttv_api k (lift_cp cp) o) t r te false = Ok l /\ StronglySorted lt l /\
    forall m, In m l <-> (m < N)%nat /\ exists j s, (j < n)%nat /\ Rabs (s - ts m) <= es j / 2 /\
      transits k (os j) (rs j) (o_t0 (os j) + (s - near j (ts m))).
Proof.
  intro G. destruct (under k n o os tts sys) as (x & xs & Hx & Sy).
  destruct (tlist (fun m j => exists s, Rabs (s - ts m) <= es j / 2 /\ transits k (os j) (rs j) (o_t0 (os j) + (s - near j (ts m))))) as (l & L1 & L2 & L3).
  { intros m j Hj. destruct (G j Hj) as (G1 & G2 & G3 & G4).
    assert (Hi := sy_init _ _ _ _ _ Sy j Hj). assert (Hp := sy_phys _ _ _ _ _ Sy j Hj).
    destruct (mask_circ k kok (xs j) (os j) Hi Hp G1 (rs j) (fun _ u => fsub u (look o j u)) cp (Fin (ts m))
      (ts m - near j (ts m)) (twarp m j Hj) (te_of te es j) G2 G3 G4) as (b & E & B).
    { rewrite (te_pad n te es He). apply Hpos, Hj. }
    exists b. split; [exact E|]. rewrite B, (te_pad n te es He). split; intros (s & S1 & S2).
    - exists (near j (ts m) + s). split; [replace (near j (ts m) + s - ts m) with (s - (ts m - near j (ts m))) by ring; exact S1|].
      replace (near j (ts m) + s - near j (ts m)) with s by ring. exact S2.
    - exists (s - near j (ts m)). split; [|exact S2]. replace (s - near j (ts m) - (ts m - near j (ts m))) with (s - ts m) by ring. exact S1. }
  exists l. split; [exact L1|]. split; [exact L2|]. intro m. rewrite L3. split; intros [Hm E]; (split; [exact Hm|]).
  - destruct E as (j & Hj & s & E). exists j, s. split; [exact Hj|exact E].
  - destruct E as (j & s & Hj & E). exists j. split; [exact Hj|]. exists s. exact E.
Qed.

Lemma tflag m j d : o_ecc (os j) = Some d -> snd (tentry m j) = snd (solver_answer cp (os j) (rs j)).
Proof.
  intro E. unfold tentry, solver_answer, transit_mask, transit_window.
  cbn [fin_orbit map_orbit o_ecc o_a o_r_star o_period o_b o_sin_incl o_cos_incl o_M0 o_n]. rewrite E.
  cbn [option_map map_eccd e_ecc e_cosw e_sinw]. fn. rewrite !Rplus_0_r.
  destruct (cp _ _ _ _ _ _ _) as [[? ?] f]. reflexivity.
Qed.
Lemma ttv_in_flag j : (j < n)%nat -> o_ecc (os j) <> None -> snd (solver_answer cp (os j) (rs j)) <> Fin 0 ->
  oa_in_transit (ttv_api k (lift_cp cp) o) t r te false = Ok (seq 0 N).
Proof.
  intros Hj He' Hf. rewrite tkin.
  destruct (flags_ok n tentry) eqn:FO; [|reflexivity]. exfalso.
  unfold flags_ok in FO. rewrite forallb_forall in FO. specialize (FO j ltac:(apply in_seq; lia)).
  destruct (o_ecc (os j)) as [d|] eqn:E; [|contradiction]. rewrite (tflag 0 j d E) in FO.
  destruct (snd (solver_answer cp (os j) (rs j))) as [v|?|]; cbn in FO; try discriminate FO.
  apply L_real.Reqb_true in FO. apply Hf. rewrite FO. reflexivity.
Qed.

Lemma ttv_in_ecc (al be : nat -> R) :
  (forall j, (j < n)%nat -> o_ecc (os j) <> None /\ transit_interval k (os j) (rs j) (al j) (be j) /\
     solved cp (os j) (rs j) (al j) (be j) /\
     al j + es j / 2 < o_period (os j) / 2 /\ be j + es j / 2 < o_period (os j) / 2) ->
  exists l, oa_in_transit (ttv_api k (lift_cp cp) o) t r te false = Ok l /\ StronglySorted lt l /\
    forall m, In m l <-> (m < N)%nat /\ exists j s, (j < n)%nat /\ Rabs (s - ts m) <= es j / 2 /\
      transits k (os j) (rs j) (o_t0 (os j) + (s - near j (ts m))).
Proof.
  intro G. destruct (under k n o os tts sys) as (x & xs & Hx & Sy).
  destruct (tlist (fun m j => exists s, Rabs (s - ts m) <= es j / 2 /\ transits k (os j) (rs j) (o_t0 (os j) + (s - near j (ts m))))) as (l & L1 & L2 & L3).
  { intros m j Hj. destruct (G j Hj) as (G1 & (G2 & G3 & GT) & (m1 & m2 & G6) & G4 & G5).
    assert (Hi := sy_init _ _ _ _ _ Sy j Hj). assert (Hp := sy_phys _ _ _ _ _ Sy j Hj).
    assert (F := kep_init_facts k kok (xs j) (os j) Hi Hp).
    unfold solver_answer in G6. destruct (o_ecc (os j)) as [d|] eqn:E; [|contradiction].
    assert (P := ph_period _ Hp). assert (Hpi := PI_RGT_0). assert (He0 := Hpos j Hj).
    assert (EM : o_M0 (os j) = 2 * PI / o_period (os j) * (o_t0 (os j) - o_tper (os j))).
    { rewrite (of_t0 _ _ _ F), (of_n _ _ _ F). field. split; lra. }
    destruct (mask_ecc k kok (xs j) (os j) Hi Hp d E (rs j) (fun _ u => fsub u (look o j u)) cp (Fin (ts m)) (ts m - near j (ts m))
      (twarp m j Hj) (te_of te es j) (al j) (be j) m1 m2 (Fin 0)) as (b & Eb & B); try assumption.
    { rewrite G6. rewrite EM, (of_n _ _ _ F). f_equal; f_equal; f_equal; field; lra. }
    { rewrite (te_pad n te es He). exact He0. }
    { rewrite (te_pad n te es He). exact G4. }
    { rewrite (te_pad n te es He). exact G5. }
    exists b. split; [exact Eb|]. rewrite B, (te_pad n te es He). set (v := near j (ts m)). split.
    - intros (q & Q1 & Q2).
      set (lo := IZR q * o_period (os j) - al j). set (hi := IZR q * o_period (os j) + be j).
      assert (L : lo <= hi) by (unfold lo, hi; lra).
      assert (L1 : lo - es j / 2 <= ts m - v <= hi + es j / 2) by (unfold lo, hi; lra).
      exists (v + Rmax lo (Rmin hi (ts m - v))). rewrite GT. split.
      + unfold Rmax, Rmin. destruct (Rle_dec hi (ts m - v)); destruct (Rle_dec lo _); apply Rabs_le; lra.
      + exists q. assert (lo <= Rmax lo (Rmin hi (ts m - v)) <= hi) by (unfold Rmax, Rmin; destruct (Rle_dec hi (ts m - v)); destruct (Rle_dec lo _); lra).
        unfold lo, hi in *. lra.
    - intros (s & S1 & S2). apply GT in S2. destruct S2 as (q & S2). apply Rabs_le_between in S1. exists q. lra. }
  exists l. split; [exact L1|]. split; [exact L2|]. intro m. rewrite L3. split; intros [Hm E]; (split; [exact Hm|]).
  - destruct E as (j & Hj & s & E). exists j, s. split; [exact Hj|exact E].
  - destruct E as (j & s & Hj & E). exists j. split; [exact Hj|]. exists s. exact E.
Qed.
End I.
End T.
