(** * TTVOrbit: construction and evaluation *)
From Coq Require Import Reals List Bool Arith ZArith Lra Lia Psatz Sorted String.
From Verif Require Import Num CoreOps Inst M_units M_kepler M_kwargs M_fin M_tensor M_ttv Spec_orbit Spec_params Spec_array Spec_ttv
  L_real L_fl L_fl2 L_fl3 L_fl4 L_tens L_shape L_params3 L_transit3 L_transit4 L_array L_ptransit L_ttv1 L_ttv2.
Import ListNotations.
Open Scope R_scope.
Local Notation length := List.length.

(** ** What the constructor establishes *)
Lemma finish_ok o ttvs inds times P r : ttv_finish o ttvs inds times P = Ok r ->
  tt_orbit r = o /\ tt_ttvs r = ttvs /\ tt_inds r = inds /\ tt_times r = times /\ tt_period r = P /\
  length (tt_all r) = length inds /\ length (tt_bins r) = length inds /\
  (forall i x, nth_error inds i = Some x -> exists t0 p tt all bin,
     tix (o_t0 o) i = Ok t0 /\ tix (o_period o) i = Ok p /\ nth_error times i = Some tt /\
     ttv_all t0 p x tt = Ok all /\ nth_error (tt_all r) i = Some all /\
     exists q, tix P i = Ok q /\ ttv_bins q all = Ok bin /\ nth_error (tt_bins r) i = Some bin).
Proof.
  unfold ttv_finish. intro H.
  destruct (imap _ inds) as [all|] eqn:E1 in H; [|discriminate H]. cbn [rbind] in H.
  destruct (imap _ all) as [bins|] eqn:E2 in H; [|discriminate H]. cbn [rbind] in H. apply Ok_inj in H. subst r. cbn.
  apply imap_ok in E1. apply imap_ok in E2. destruct E1 as [L1 I1]. destruct E2 as [L2 I2].
  split; [reflexivity|]. split; [reflexivity|]. split; [reflexivity|]. split; [reflexivity|]. split; [reflexivity|].
  split; [exact L1|]. split; [lia|]. intros i x Hx. destruct (I1 i x Hx) as (a & Ha & E).
  destruct (tix (o_t0 o) i) as [t0|] eqn:T0; [|discriminate E]. cbn [rbind] in E.
  destruct (tix (o_period o) i) as [p|] eqn:Tp; [|discriminate E]. cbn [rbind] in E.
  unfold lix in E. destruct (nth_error times i) as [tt|] eqn:Tt; [|discriminate E]. cbn [rbind] in E.
  destruct (I2 i a Ha) as (bin & Hb & E'). destruct (tix P i) as [q|] eqn:TP; [|discriminate E']. cbn [rbind] in E'.
  exists t0, p, tt, a, bin. split; [reflexivity|]. split; [reflexivity|]. split; [reflexivity|]. split; [exact E|]. split; [exact Ha|].
  exists q. auto.
Qed.

Lemma nth_error_some_lt {A} (l : list A) i a : nth_error l i = Some a -> (i < length l)%nat.
Proof. intro H. apply nth_error_Some. congruence. Qed.
Lemma len_le {A C} (l : list A) (l' : list C) : (forall i a, nth_error l i = Some a -> exists c, nth_error l' i = Some c) -> (length l <= length l')%nat.
Proof.
  intro H. destruct (le_lt_dec (length l) (length l')); [assumption|]. exfalso.
  destruct (nth_error l (length l')) as [a|] eqn:E; [|apply nth_error_None in E; lia].
  destruct (H _ _ E) as [c Hc]. apply nth_error_some_lt in Hc. lia.
Qed.

Lemma ttv_init_finish k x o : ttv_init k x = Ok o ->
  ttv_finish (tt_orbit o) (tt_ttvs o) (tt_inds o) (tt_times o) (tt_period o) = Ok o /\
  length (tt_ttvs o) = length (tt_inds o) /\ length (tt_times o) = length (tt_inds o) /\
  exists kw, kep_call k kw = Ok (tt_orbit o).
Proof.
  intro H. unfold ttv_init in H. destruct (ta_ttvs x) as [ttvs|].
  - set (inds := match ta_inds x with None => _ | Some l => l end) in *. clearbody inds.
    destruct (kep_call k (ta_kw x)) as [ob|] eqn:Ek; [|discriminate H]. cbn [rbind] in H.
    destruct (imap _ ttvs) as [times|] eqn:E1 in H; [|discriminate H]. cbn [rbind] in H.
    destruct (finish_ok _ _ _ _ _ _ H) as (A1 & A2 & A3 & A4 & A5 & A6 & A7 & A8).
    rewrite A1, A2, A3, A4, A5. split; [exact H|]. apply imap_ok in E1. destruct E1 as [L1 I1].
    assert (L2 : (length ttvs <= length inds)%nat).
    { apply len_le. intros i a Ha. destruct (I1 i a Ha) as (c & _ & E). destruct (tix (o_t0 ob) i); [|discriminate E]. cbn [rbind] in E.
      destruct (tix (o_period ob) i); [|discriminate E]. cbn [rbind] in E. unfold lix in E. destruct (nth_error inds i) as [z|]; [|discriminate E]. exists z. reflexivity. }
    assert (L3 : (length inds <= length times)%nat).
    { apply len_le. intros i a Ha. destruct (A8 i a Ha) as (t0 & p & tt & all & bin & _ & _ & Ht & _). exists tt. exact Ht. }
    split; [lia|]. split; [lia|]. exists (ta_kw x). exact Ek.
  - destruct (ta_times x) as [times|]; [|discriminate H].
    destruct (imap _ times) as [fits|] eqn:E1 in H; [|discriminate H]. cbn [rbind] in H.
    destruct (tstack _) as [t0|] in H; [|discriminate H]. cbn [rbind] in H.
    destruct (tstack _) as [P|] in H; [|discriminate H]. cbn [rbind] in H.
    destruct (ttv_kwargs P t0 (ta_kw x)) as [kw|] eqn:Ew; [|discriminate H]. cbn [rbind] in H.
    destruct (kep_call k kw) as [ob|] eqn:Ek; [|discriminate H]. cbn [rbind] in H.
    destruct (finish_ok _ _ _ _ _ _ H) as (A1 & A2 & A3 & A4 & A5 & A6 & A7 & A8).
    rewrite A1, A2, A3, A4, A5. split; [exact H|]. apply imap_ok in E1. destruct E1 as [L1 I1].
    rewrite !map_length. split; [reflexivity|]. split; [lia|]. exists kw. exact Ek.
Qed.

(** ** Filled-in transit times (C34) *)
Lemma ttv_filled k x o : ttv_init k x = Ok o -> forall i inds times,
  nth_error (tt_inds o) i = Some inds -> nth_error (tt_times o) i = Some times -> inds <> [] ->
  length inds = length times -> NoDup inds -> (forall z, In z inds -> (0 <= z)%Z) ->
  exists t0 p m all, tix (o_t0 (tt_orbit o)) i = Ok t0 /\ tix (o_period (tt_orbit o)) i = Ok p /\
    nth_error (tt_all o) i = Some all /\ In m inds /\ (forall z, In z inds -> (z <= m)%Z) /\ length all = S (Z.to_nat m) /\
    (forall q z v, nth_error inds q = Some z -> nth_error times q = Some v -> nth_error all (Z.to_nat z) = Some v) /\
    (forall z, (0 <= z <= m)%Z -> ~ In z inds -> nth_error all (Z.to_nat z) = Some (fadd t0 (fmul p (Fin (IZR z))))).
Proof.
  intros H i inds times Hi Ht Hne HL Hd Hp. destruct (ttv_init_finish k x o H) as (F & _).
  destruct (finish_ok _ _ _ _ _ _ F) as (_ & _ & _ & _ & _ & _ & _ & A).
  destruct (A i inds Hi) as (t0 & p & tt & all & bin & E1 & E2 & E3 & E4 & E5 & _). rewrite Ht in E3. injection E3 as <-.
  destruct (all_fill t0 p inds times Hne HL Hd Hp) as (m & r & Im & Hm & Er & Lr & I1 & I2). rewrite E4 in Er. apply Ok_inj in Er. subst r.
  exists t0, p, m, all. split; [exact E1|]. split; [exact E2|]. split; [exact E5|]. split; [exact Im|]. split; [exact Hm|]. split; [exact Lr|].
  split; [exact I1|exact I2].
Qed.

(** ** Evaluation *)
Lemma tix_at (a : tens) j v : twf a -> tix a j = Ok v -> aget a (at_planet j) = v.
Proof.
  intros W H. unfold tix in H. destruct (ash a) as [[|d [|]]|] eqn:E; try discriminate H.
  destruct (Nat.ltb j d); [|discriminate H]. apply Ok_inj in H. rewrite <- H. apply (W _ E). intros q Hq. destruct q as [|q]; [reflexivity|]. destruct q; cbn in Hq; congruence.
Qed.

Section E.
Variables (k : consts) (n N : nat) (o : ttvorbit) (os : nat -> orbit R) (tts : nat -> list R) (t : tens) (ts : nat -> R).
Hypothesis kok : consts_ok k.
Hypothesis sys : ttv_system k n o os tts.
Hypothesis Ht : is_vector N t.
Hypothesis Hts : forall m, (m < N)%nat -> aget t (at_time m) = Fin (ts m).

Lemma n_len : length (tt_ttvs o) = n /\ length (tt_bins o) = n.
Proof.
  destruct sys as [(x & Hx) _ All _ _]. destruct (ttv_init_finish k x o Hx) as (F & L1 & L2 & _).
  destruct (finish_ok _ _ _ _ _ _ F) as (_ & _ & _ & _ & _ & L3 & L4 & _).
  rewrite All, map_length, seq_length in L3. lia.
Qed.
Lemma bin_at j : (j < n)%nat -> tts j <> [] /\ exists P, 0 < P /\
  nth j (tt_bins o) ([], []) = (map Fin (edges_r P (tts j)), map Fin (values_r (tts j))).
Proof.
  intro Hj. destruct sys as [(x & Hx) _ All _ (P & Pv & Pp)]. destruct (ttv_init_finish k x o Hx) as (F & L1 & L2 & _).
  destruct (finish_ok _ _ _ _ _ _ F) as (_ & _ & _ & _ & _ & L3 & L4 & A).
  assert (L5 : length (tt_inds o) = n) by (rewrite All, map_length, seq_length in L3; lia).
  destruct (nth_error (tt_inds o) j) as [z|] eqn:Ez; [|apply nth_error_None in Ez; lia].
  destruct (A j z Ez) as (t0 & p & tt & all & bin & _ & _ & _ & _ & E5 & q & E6 & E7 & E8).
  rewrite All, nth_error_map in E5.
  assert (E' : nth_error (seq 0 n) j = Some j) by (rewrite (nth_error_nth' _ 0%nat) by (rewrite seq_length; lia); rewrite seq_nth by lia; reflexivity).
  rewrite E' in E5. cbn in E5. injection E5 as <-.
  assert (Eq : q = Fin (P j)). { rewrite <- (proj2 Pv j Hj). symmetry. apply tix_at; [apply Pv|exact E6]. } subst q.
  assert (Hne : tts j <> []). { intro E. rewrite E in E7. discriminate E7. }
  split; [exact Hne|]. exists (P j). split; [apply Pp, Hj|]. rewrite (bins_fin (P j) (tts j) Hne) in E7. apply Ok_inj in E7.
  rewrite E7. apply nth_error_nth with (d := ([], [])) in E8. exact E8.
  apply (tv_inc _ _ _ _ _ sys j Hj).
Qed.

(** the transit a time is assigned to *)
Definition look (j : nat) (u : fl) : fl := let '(e, v) := nth j (tt_bins o) ([], []) in nth (searchsorted e u) v NaN.
Lemma look_ok j u : (j < n)%nat -> exists v, look j (Fin u) = Fin v /\ nearest (tts j) u v.
Proof.
  intro Hj. destruct (bin_at j Hj) as (Hne & P & HP & E). unfold look. rewrite E.
  apply bin_nearest; [exact HP|exact Hne|apply (tv_inc _ _ _ _ _ sys j Hj)].
Qed.
Definition wj (j : nat) (pad : bool) (u : fl) : fl := if pad then fsub u (look j u) else kep_warp (fin_orbit (os j)) false u.
Definition w' (pad : bool) (u : tens) : tens := if pad then ttv_warp o true u else kep_warp (tt_orbit o) false u.

Lemma warp_at1 i u : (i O < n)%nat -> aget (w' true u) i = wj (i O) true (aget u (fun d => i (S d))).
Proof.
  intro Hi. cbn [w' wj]. unfold ttv_warp, ttv_model_dt, look. destruct n_len as [L _]. rewrite L. cbn.
  destruct (Nat.eqb_spec n 1) as [E|E]; [|reflexivity]. replace (i O) with 0%nat by lia. reflexivity.
Qed.
Lemma n_pos : (0 < n)%nat.
Proof. destruct sys as [_ (x & xs & _ & S) _ _ _]. apply (sy_n _ _ _ _ _ S). Qed.
Lemma w'_T1 u : ash u = Ok [N] -> T1 n N (w' true u).
Proof.
  intro E. right. cbn [w']. unfold ttv_warp, ttv_model_dt. cbn. destruct n_len as [L _]. rewrite L, E. assert (Hn := n_pos).
  destruct (Nat.eqb_spec n 0); [lia|]. cbn. rewrite Nat.eqb_refl. destruct n as [|[|]]; [lia|reflexivity|reflexivity].
Qed.

Lemma under : exists x xs, kep_init k x = Ok (tt_orbit o) /\ system k n x xs os.
Proof. exact (tv_under _ _ _ _ _ sys). Qed.
Lemma under_facts : orbit_sn n (tt_orbit o) /\ En n (o_n (tt_orbit o)) /\
  (forall u, EN n N u -> EN n N (w' false u)) /\ forall i, (i O < n)%nat -> orbit_at i (tt_orbit o) = fin_orbit (os (i O)).
Proof.
  destruct under as (x & xs & Hx & S). destruct (system_orbit k n x xs os kok S) as (o' & Ho & A & B & C & D).
  rewrite Hx in Ho. apply Ok_inj in Ho. subst o'. split; [exact A|]. split; [exact B|]. split; [|exact D].
  intros u E. apply (warp_EN k n N x (tt_orbit o) (sy_args _ _ _ _ _ S) Hx u E).
Qed.
Lemma mm j : (j < n)%nat -> forall u,
  (forall b, pos k (fin_orbit (os j)) b (Fin u) None false = fin3 (pos k (os j) b u None false)) /\
  (forall b, vel (fin_orbit (os j)) b (Fin u) = fin3 (vel (os j) b u)).
Proof.
  intros Hj u. destruct under as (x & xs & Hx & S).
  destruct (machine_motion k (xs j) (os j) kok (sy_init _ _ _ _ _ S j Hj) (sy_phys _ _ _ _ _ S j Hj) (sy_dur _ _ _ _ _ S j Hj)) as (fo & F1 & F2).
  assert (E : fo = fin_orbit (os j)).
  { assert (Q := kep_init_fin k kok (xs j) (os j) (sy_init _ _ _ _ _ S j Hj) (sy_phys _ _ _ _ _ S j Hj) (sy_dur _ _ _ _ _ S j Hj)).
    rewrite F1 in Q. apply Ok_inj in Q. exact Q. }
  rewrite <- E. destruct (F2 u) as (G1 & G2 & _). split; [intro b; exact (G1 b None)|exact G2].
Qed.

Lemma ta_congr (oj : orbit fl) w1 w2 u v : w1 true u = w2 true v -> true_anomaly oj w1 true u = true_anomaly oj w2 true v.
Proof. intro E. unfold true_anomaly. rewrite E. reflexivity. Qed.

Definition tv_of (m j : nat) : R := match look j (Fin (ts m)) with Fin v => v | _ => 0 end.
Lemma tv_near m j : (j < n)%nat -> nearest (tts j) (ts m) (tv_of m j).
Proof. intro Hj. destruct (look_ok j (ts m) Hj) as (v & E & H). unfold tv_of. rewrite E. exact H. Qed.
Definition eq_time (m j : nat) : R := o_t0 (os j) + (ts m - tv_of m j).
Lemma warp_eq m j : (j < n)%nat -> wj j true (Fin (ts m)) = kep_warp (fin_orbit (os j)) true (Fin (eq_time m j)).
Proof.
  intro Hj. destruct (look_ok j (ts m) Hj) as (v & E & _). cbn [wj]. rewrite E. unfold eq_time, tv_of. rewrite E. cbn. f_equal. ring.
Qed.

Lemma tpos_table b : is_table3 n N (tpos k o b t None false) (fun m j => fin3 (pos k (os j) b (eq_time m j) None false)).
Proof.
  destruct under_facts as (So & Eno & W0 & At).
  assert (G : forall (f : orbit tens -> tens) (f' : orbit fl -> fl), Sn n (f (tt_orbit o)) -> (forall i, aget (f (tt_orbit o)) i = f' (orbit_at i (tt_orbit o))) ->
    is_table3 n N (sqz3 (position_nodelay k (tt_orbit o) (ttv_warp o) (f (tt_orbit o)) t None true))
     (fun m j => sqz3 (position_nodelay k (fin_orbit (os j)) (kep_warp (fin_orbit (os j))) (f' (fin_orbit (os j))) (Fin (eq_time m j)) None true))).
  { intros f f' Sf Ef. change (position_nodelay k (tt_orbit o) (ttv_warp o) (f (tt_orbit o)) t None true)
      with (position_nodelay k (tt_orbit o) w' (f (tt_orbit o)) t None true). apply table3.
    - apply (pos_nd_shape n N k (tt_orbit o) So Eno w' w'_T1 W0 (f (tt_orbit o)) t None true Sf I (proj2 Ht) _ eq_refl).
    - intros m j Hm Hj. unfold vec_at. assert (I0 := II0 n N m j Hj).
      assert (Hw1 : forall u, aget (w' true u) (II n N m j) = wj j true (aget u (fun d => II n N m j (S d)))).
      { intro u. assert (Q := warp_at1 (II n N m j) u). rewrite I0 in Q. apply Q, Hj. }
      assert (AtI := At (II n N m j)). rewrite I0 in AtI. specialize (AtI Hj).
      assert (Hw0 : forall u, aget (w' false u) (II n N m j) = wj j false (aget u (II n N m j))).
      { intro u. cbn [w' wj]. rewrite kep_warp_at0, AtI. reflexivity. }
      rewrite (pos_nd_at k (II n N m j) (tt_orbit o) w' (wj j) Hw1 Hw0). rewrite Ef, AtI, (time_at n N m j Hm t Ht), (Hts m Hm), sqz3_F.
      cbn [option_map]. unfold position_nodelay. rewrite (ta_congr _ _ _ _ _ (warp_eq m j Hj)). reflexivity. }
  assert (M : forall m j, (m < N)%nat -> (j < n)%nat -> pos k (fin_orbit (os j)) b (Fin (eq_time m j)) None false = fin3 (pos k (os j) b (eq_time m j) None false)).
  { intros m j Hm Hj. apply (mm j Hj). }
  refine (table3_ext _ _ _ _ _ M _).
  destruct b; unfold tpos, pos, get_planet_position, get_star_position, get_relative_position, get_position.
  - apply (G (fun o => o_a_planet o) (fun o => o_a_planet o)); [apply (os_ap _ _ So)|reflexivity].
  - apply (G (fun o => o_a_star o) (fun o => o_a_star o)); [apply (os_as _ _ So)|reflexivity].
  - apply (G (fun o => (- o_a o)%num) (fun o => (- o_a o)%num)); [apply (Sn_map n fneg), (os_a _ _ So)|reflexivity].
Qed.
Lemma tvel_table b : is_table3 n N (tvel o b t) (fun m j => fin3 (vel (os j) b (eq_time m j))).
Proof.
  destruct under_facts as (So & Eno & W0 & At).
  assert (G : forall (f : orbit tens -> tens) (f' : orbit fl -> fl), Sn n (f (tt_orbit o)) -> (forall i, aget (f (tt_orbit o)) i = f' (orbit_at i (tt_orbit o))) ->
    is_table3 n N (sqz3 (get_velocity (tt_orbit o) (ttv_warp o) (f (tt_orbit o)) t))
     (fun m j => sqz3 (get_velocity (fin_orbit (os j)) (kep_warp (fin_orbit (os j))) (f' (fin_orbit (os j))) (Fin (eq_time m j))))).
  { intros f f' Sf Ef. change (get_velocity (tt_orbit o) (ttv_warp o) (f (tt_orbit o)) t)
      with (get_velocity (tt_orbit o) w' (f (tt_orbit o)) t). apply table3.
    - apply (vel_shape n N (tt_orbit o) So Eno w' w'_T1 W0 (f (tt_orbit o)) t Sf (proj2 Ht) _ eq_refl).
    - intros m j Hm Hj. unfold vec_at. assert (I0 := II0 n N m j Hj).
      assert (Hw1 : forall u, aget (w' true u) (II n N m j) = wj j true (aget u (fun d => II n N m j (S d)))).
      { intro u. assert (Q := warp_at1 (II n N m j) u). rewrite I0 in Q. apply Q, Hj. }
      assert (AtI := At (II n N m j)). rewrite I0 in AtI. specialize (AtI Hj).
      assert (Hw0 : forall u, aget (w' false u) (II n N m j) = wj j false (aget u (II n N m j))).
      { intro u. cbn [w' wj]. rewrite kep_warp_at0, AtI. reflexivity. }
      rewrite (vel_at (II n N m j) (tt_orbit o) w' (wj j) Hw1 Hw0). rewrite Ef, AtI, (time_at n N m j Hm t Ht), (Hts m Hm), sqz3_F.
      unfold get_velocity. rewrite (ta_congr _ _ _ _ _ (warp_eq m j Hj)). reflexivity. }
  assert (M : forall m j, (m < N)%nat -> (j < n)%nat -> vel (fin_orbit (os j)) b (Fin (eq_time m j)) = fin3 (vel (os j) b (eq_time m j))).
  { intros m j Hm Hj. apply (mm j Hj). }
  refine (table3_ext _ _ _ _ _ M _).
  destruct b; unfold tvel, vel, get_planet_velocity, get_star_velocity, get_relative_velocity.
  - apply (G (fun o => (- o_m_star o)%num) (fun o => (- o_m_star o)%num)); [apply (Sn_map n fneg), (os_ms _ _ So)|reflexivity].
  - apply (G (fun o => o_m_planet o) (fun o => o_m_planet o)); [apply (os_mp _ _ So)|reflexivity].
  - apply (G (fun o => (- o_m_total o)%num) (fun o => (- o_m_total o)%num)); [apply (Sn_map n fneg), (os_mt _ _ So)|reflexivity].
Qed.

Lemma ttv_tables : exists v : nat -> nat -> R,
  (forall m j, (m < N)%nat -> (j < n)%nat -> nearest (tts j) (ts m) (v m j)) /\ forall b,
  is_table3 n N (tpos k o b t None false) (fun m j => fin3 (pos k (os j) b (o_t0 (os j) + (ts m - v m j)) None false)) /\
  is_table3 n N (tvel o b t) (fun m j => fin3 (vel (os j) b (o_t0 (os j) + (ts m - v m j)))).
Proof.
  exists tv_of. split; [intros; apply tv_near; assumption|]. intro b. split; [apply tpos_table|apply tvel_table].
Qed.
End E.
