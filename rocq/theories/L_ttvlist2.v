(** * Fewer lists than planets; transit_inds with transit_times (C107) *)
From Coq Require Import Reals List Bool Arith ZArith Lra Lia Psatz Sorted String.
From Verif Require Import Num CoreOps Inst M_units M_kepler M_kwargs M_fin M_tensor M_ttv Spec_orbit Spec_params Spec_array Spec_ttv Spec_ttvlist
  L_real L_fl L_fl2 L_fl3 L_fl4 L_tens L_shape L_params3 L_transit3 L_transit4 L_array L_ptransit L_ttv1 L_ttv2 L_ttv3 L_ttv4 L_ttvlab L_ttvlist.
Import ListNotations.
Open Scope R_scope.
Local Notation length := List.length.

Section E.
Variables (k : consts) (n m0 N : nat) (o : ttvorbit) (os : nat -> orbit R) (tts : nat -> list R) (t : tens) (ts : nat -> R).
Hypothesis kok : consts_ok k.
Hypothesis sys : short_system k n m0 o os tts.
Hypothesis Ht : is_vector N t.

Lemma m_len : length (tt_ttvs o) = m0 /\ length (tt_bins o) = m0.
Proof.
  destruct sys as [(x & Hx) _ _ All _ _]. destruct (ttv_init_finish k x o Hx) as (F & L1 & L2 & _).
  destruct (finish_ok _ _ _ _ _ _ F) as (_ & _ & _ & _ & _ & L3 & L4 & _).
  rewrite All, map_length, seq_length in L3. lia.
Qed.
Lemma sbin_at j : (j < m0)%nat -> tts j <> [] /\ exists P, 0 < P /\
  nth j (tt_bins o) ([], []) = (map Fin (edges_r P (tts j)), map Fin (values_r (tts j))).
Proof.
  intro Hj. destruct sys as [(x & Hx) _ (_ & Hlt) All _ (P & Pv & Pp)]. destruct (ttv_init_finish k x o Hx) as (F & L1 & L2 & _).
  destruct (finish_ok _ _ _ _ _ _ F) as (_ & _ & _ & _ & _ & L3 & L4 & A).
  assert (L5 : length (tt_inds o) = m0) by (rewrite All, map_length, seq_length in L3; lia).
  destruct (nth_error (tt_inds o) j) as [z|] eqn:Ez; [|apply nth_error_None in Ez; lia].
  destruct (A j z Ez) as (t0 & p & tt & all & bin & _ & _ & _ & _ & E5 & q & E6 & E7 & E8).
  rewrite All, nth_error_map in E5.
  assert (E' : nth_error (seq 0 m0) j = Some j) by (rewrite (nth_error_nth' _ 0%nat) by (rewrite seq_length; lia); rewrite seq_nth by lia; reflexivity).
  rewrite E' in E5. cbn in E5. injection E5 as <-.
  assert (Eq : q = Fin (P j)). { rewrite <- (proj2 Pv j ltac:(lia)). symmetry. apply tix_at; [apply Pv|exact E6]. } subst q.
  assert (Hne : tts j <> []). { intro E. rewrite E in E7. discriminate E7. }
  split; [exact Hne|]. exists (P j). split; [apply Pp, Hj|]. rewrite (bins_fin (P j) (tts j) Hne) in E7. apply Ok_inj in E7.
  rewrite E7. apply nth_error_nth with (d := ([], [])) in E8. exact E8.
  apply (sh_inc _ _ _ _ _ _ sys j Hj).
Qed.
Lemma slook_ok j u : (j < m0)%nat -> exists v, look o j (Fin u) = Fin v /\ nearest (tts j) u v.
Proof.
  intro Hj. destruct (sbin_at j Hj) as (Hne & P & HP & E). unfold look. rewrite E.
  apply bin_nearest; [exact HP|exact Hne|apply (sh_inc _ _ _ _ _ _ sys j Hj)].
Qed.
Lemma sunder_facts : orbit_sn n (tt_orbit o) /\ En n (o_n (tt_orbit o)) /\
  (forall u, EN n N u -> EN n N (w' o false u)) /\ forall i, (i O < n)%nat -> orbit_at i (tt_orbit o) = fin_orbit (os (i O)).
Proof.
  destruct (sh_under _ _ _ _ _ _ sys) as (x & xs & Hx & S). destruct (system_orbit k n x xs os kok S) as (o' & Ho & A & B & C & D).
  rewrite Hx in Ho. apply Ok_inj in Ho. subst o'. split; [exact A|]. split; [exact B|]. split; [|exact D].
  intros u E. apply (warp_EN k n N x (tt_orbit o) (sy_args _ _ _ _ _ S) Hx u E).
Qed.
Lemma smm j : (j < n)%nat -> forall u,
  (forall b, pos k (fin_orbit (os j)) b (Fin u) None false = fin3 (pos k (os j) b u None false)) /\
  (forall b, vel (fin_orbit (os j)) b (Fin u) = fin3 (vel (os j) b u)).
Proof.
  intros Hj u. destruct (sh_under _ _ _ _ _ _ sys) as (x & xs & Hx & S).
  destruct (machine_motion k (xs j) (os j) kok (sy_init _ _ _ _ _ S j Hj) (sy_phys _ _ _ _ _ S j Hj) (sy_dur _ _ _ _ _ S j Hj)) as (fo & F1 & F2).
  assert (E : fo = fin_orbit (os j)).
  { assert (Q := kep_init_fin k kok (xs j) (os j) (sy_init _ _ _ _ _ S j Hj) (sy_phys _ _ _ _ _ S j Hj) (sy_dur _ _ _ _ _ S j Hj)).
    rewrite F1 in Q. apply Ok_inj in Q. exact Q. }
  rewrite <- E. destruct (F2 u) as (G1 & G2 & _). split; [intro b; exact (G1 b None)|exact G2].
Qed.

(** ** One list for several planets *)
Section One.
Hypothesis one : m0 = 1%nat.
Hypothesis Hts : forall m, (m < N)%nat -> aget t (at_time m) = Fin (ts m).
Definition swj (j : nat) (pad : bool) (u : fl) : fl := if pad then fsub u (look o 0 u) else kep_warp (fin_orbit (os j)) false u.
Lemma swarp_at1 i u : aget (w' o true u) i = swj (i O) true (aget u (fun d => i (S d))).
Proof. cbn [w' swj]. unfold ttv_warp, ttv_model_dt, look. destruct m_len as [L _]. rewrite L, one. reflexivity. Qed.
Lemma sw_T1 u : ash u = Ok [N] -> T1 n N (w' o true u).
Proof. intro E. left. cbn [w']. unfold ttv_warp, ttv_model_dt. cbn. destruct m_len as [L _]. rewrite L, one, E. cbn. rewrite Nat.eqb_refl. reflexivity. Qed.
Definition stv (m : nat) : R := match look o 0 (Fin (ts m)) with Fin v => v | _ => 0 end.
Lemma stv_near m : nearest (tts 0%nat) (ts m) (stv m).
Proof. destruct (slook_ok 0 (ts m) ltac:(lia)) as (v & E & H). unfold stv. rewrite E. exact H. Qed.
Definition seq_time (m j : nat) : R := o_t0 (os j) + (ts m - stv m).
Lemma swarp_eq m j : swj j true (Fin (ts m)) = kep_warp (fin_orbit (os j)) true (Fin (seq_time m j)).
Proof. destruct (slook_ok 0 (ts m) ltac:(lia)) as (v & E & _). cbn [swj]. rewrite E. unfold seq_time, stv. rewrite E. cbn. f_equal. ring. Qed.

Lemma stpos_table b : is_table3 n N (tpos k o b t None false) (fun m j => fin3 (pos k (os j) b (seq_time m j) None false)).
Proof.
  destruct sunder_facts as (So & Eno & W0 & At).
  assert (G : forall (f : orbit tens -> tens) (f' : orbit fl -> fl), Sn n (f (tt_orbit o)) -> (forall i, aget (f (tt_orbit o)) i = f' (orbit_at i (tt_orbit o))) ->
    is_table3 n N (sqz3 (position_nodelay k (tt_orbit o) (ttv_warp o) (f (tt_orbit o)) t None true))
     (fun m j => sqz3 (position_nodelay k (fin_orbit (os j)) (kep_warp (fin_orbit (os j))) (f' (fin_orbit (os j))) (Fin (seq_time m j)) None true))).
  { intros f f' Sf Ef. change (position_nodelay k (tt_orbit o) (ttv_warp o) (f (tt_orbit o)) t None true)
      with (position_nodelay k (tt_orbit o) (w' o) (f (tt_orbit o)) t None true). apply table3.
    - apply (pos_nd_shape n N k (tt_orbit o) So Eno (w' o) sw_T1 W0 (f (tt_orbit o)) t None true Sf I (proj2 Ht) _ eq_refl).
    - intros m j Hm Hj. unfold vec_at. assert (I0 := II0 n N m j Hj).
      assert (Hw1 : forall u, aget (w' o true u) (II n N m j) = swj j true (aget u (fun d => II n N m j (S d)))).
      { intro u. assert (Q := swarp_at1 (II n N m j) u). rewrite I0 in Q. exact Q. }
      assert (AtI := At (II n N m j)). rewrite I0 in AtI. specialize (AtI Hj).
      assert (Hw0 : forall u, aget (w' o false u) (II n N m j) = swj j false (aget u (II n N m j))).
      { intro u. cbn [w' swj]. rewrite kep_warp_at0, AtI. reflexivity. }
      rewrite (pos_nd_at k (II n N m j) (tt_orbit o) (w' o) (swj j) Hw1 Hw0). rewrite Ef, AtI, (time_at n N m j Hm t Ht), (Hts m Hm), sqz3_F.
      cbn [option_map]. unfold position_nodelay. rewrite (ta_congr _ _ _ _ _ (swarp_eq m j)). reflexivity. }
  assert (M : forall m j, (m < N)%nat -> (j < n)%nat -> pos k (fin_orbit (os j)) b (Fin (seq_time m j)) None false = fin3 (pos k (os j) b (seq_time m j) None false)).
  { intros m j Hm Hj. apply (smm j Hj). }
  refine (table3_ext _ _ _ _ _ M _).
  destruct b; unfold tpos, pos, get_planet_position, get_star_position, get_relative_position, get_position.
  - apply (G (fun o => o_a_planet o) (fun o => o_a_planet o)); [apply (os_ap _ _ So)|reflexivity].
  - apply (G (fun o => o_a_star o) (fun o => o_a_star o)); [apply (os_as _ _ So)|reflexivity].
  - apply (G (fun o => (- o_a o)%num) (fun o => (- o_a o)%num)); [apply (Sn_map n fneg), (os_a _ _ So)|reflexivity].
Qed.
Lemma stvel_table b : is_table3 n N (tvel o b t) (fun m j => fin3 (vel (os j) b (seq_time m j))).
Proof.
  destruct sunder_facts as (So & Eno & W0 & At).
  assert (G : forall (f : orbit tens -> tens) (f' : orbit fl -> fl), Sn n (f (tt_orbit o)) -> (forall i, aget (f (tt_orbit o)) i = f' (orbit_at i (tt_orbit o))) ->
    is_table3 n N (sqz3 (get_velocity (tt_orbit o) (ttv_warp o) (f (tt_orbit o)) t))
     (fun m j => sqz3 (get_velocity (fin_orbit (os j)) (kep_warp (fin_orbit (os j))) (f' (fin_orbit (os j))) (Fin (seq_time m j))))).
  { intros f f' Sf Ef. change (get_velocity (tt_orbit o) (ttv_warp o) (f (tt_orbit o)) t)
      with (get_velocity (tt_orbit o) (w' o) (f (tt_orbit o)) t). apply table3.
    - apply (vel_shape n N (tt_orbit o) So Eno (w' o) sw_T1 W0 (f (tt_orbit o)) t Sf (proj2 Ht) _ eq_refl).
    - intros m j Hm Hj. unfold vec_at. assert (I0 := II0 n N m j Hj).
      assert (Hw1 : forall u, aget (w' o true u) (II n N m j) = swj j true (aget u (fun d => II n N m j (S d)))).
      { intro u. assert (Q := swarp_at1 (II n N m j) u). rewrite I0 in Q. exact Q. }
      assert (AtI := At (II n N m j)). rewrite I0 in AtI. specialize (AtI Hj).
      assert (Hw0 : forall u, aget (w' o false u) (II n N m j) = swj j false (aget u (II n N m j))).
      { intro u. cbn [w' swj]. rewrite kep_warp_at0, AtI. reflexivity. }
      rewrite (vel_at (II n N m j) (tt_orbit o) (w' o) (swj j) Hw1 Hw0). rewrite Ef, AtI, (time_at n N m j Hm t Ht), (Hts m Hm), sqz3_F.
      unfold get_velocity. rewrite (ta_congr _ _ _ _ _ (swarp_eq m j)). reflexivity. }
  assert (M : forall m j, (m < N)%nat -> (j < n)%nat -> vel (fin_orbit (os j)) b (Fin (seq_time m j)) = fin3 (vel (os j) b (seq_time m j))).
  { intros m j Hm Hj. apply (smm j Hj). }
  refine (table3_ext _ _ _ _ _ M _).
  destruct b; unfold tvel, vel, get_planet_velocity, get_star_velocity, get_relative_velocity.
  - apply (G (fun o => (- o_m_star o)%num) (fun o => (- o_m_star o)%num)); [apply (Sn_map n fneg), (os_ms _ _ So)|reflexivity].
  - apply (G (fun o => o_m_planet o) (fun o => o_m_planet o)); [apply (os_mp _ _ So)|reflexivity].
  - apply (G (fun o => (- o_m_total o)%num) (fun o => (- o_m_total o)%num)); [apply (Sn_map n fneg), (os_mt _ _ So)|reflexivity].
Qed.
End One.

(** ** Several lists, but fewer than planets *)
Section Bad.
Hypothesis several : m0 <> 1%nat.
Definition Bad {A} (a : arr A) : Prop := ash a = Err ShapeErr.
Lemma Bad_map {A C} (f : A -> C) a : Bad a -> Bad (amap f a). Proof. intro H. exact H. Qed.
Lemma Bad_map2 {A C D} (f : A -> C -> D) a b : Bad a -> Bad b -> Bad (amap2 f a b).
Proof. unfold Bad. cbn [ash amap2]. intros -> ->. reflexivity. Qed.
Lemma Bad_map2l {A C D} (f : A -> C -> D) a b : Bad a -> Sn n b -> Bad (amap2 f a b).
Proof. unfold Bad. cbn [ash amap2]. intros -> _. reflexivity. Qed.
Lemma Bad_map2r {A C D} (f : A -> C -> D) a b : Sn n a -> Bad b -> Bad (amap2 f a b).
Proof. unfold Bad. cbn [ash amap2]. intros [[Hb _]|[Hb _]] ->; rewrite Hb; reflexivity. Qed.
Ltac sn := first
  [ assumption
  | apply (Sn_lit)
  | apply En_Sn; assumption
  | apply Sn_map; sn | apply Sn_map2; sn | apply Sn_map3; sn ].
Ltac x3 := first [ assumption | apply Bad_map; x3 | apply Bad_map2; x3 | apply Bad_map2l; [x3|sn] | apply Bad_map2r; [sn|x3] ].
Definition Bad3 (v : tens * tens * tens) : Prop := Bad (fst (fst v)) /\ Bad (snd (fst v)) /\ Bad (snd v).

Lemma mean_bad : Bad ((ttv_warp o true t - o_tref (tt_orbit o)) * o_n (tt_orbit o))%num.
Proof.
  destruct sunder_facts as (So & (_ & Eno) & _ & _). assert (S2 := os_tref _ _ So). destruct m_len as [L _]. assert (Hm := sh_less _ _ _ _ _ _ sys).
  assert (W : ash (ttv_warp o true t) = Ok [m0; N]).
  { unfold ttv_warp, ttv_model_dt. cbn [nsub NumT amap2 ash npadr apadr]. rewrite L, (proj2 Ht). destruct (Nat.eqb_spec m0 0); [lia|]. cbn.
    destruct m0 as [|[|m1]]; [lia|lia|]. cbn. rewrite Nat.eqb_refl. reflexivity. }
  assert (On : ash (o_n (tt_orbit o)) = Ok [n]) by (destruct Eno; [assumption|lia]).
  unfold Bad. cbn [nmul nsub NumT amap2 ash]. rewrite W, On.
  assert (B : bcr (Ok [m0; N]) (Ok [n]) = Err ShapeErr).
  { cbn. destruct (Nat.eqb_spec m0 n); [lia|]. destruct (Nat.eqb_spec m0 1); [lia|]. destruct (Nat.eqb_spec n 1); [lia|]. reflexivity. }
  destruct S2 as [[-> _]|[-> _]]; [|rewrite B; reflexivity]. exact B.
Qed.
Lemma rot_bad (x y : tens) : Bad x -> Bad y -> Bad3 (rotate_vector (tt_orbit o) x y).
Proof.
  intros Hx Hy. destruct sunder_facts as (So & _). assert (S1 := os_ecc _ _ So). assert (S2 := os_Om _ _ So). assert (S3' := os_ci _ _ So). assert (S4 := os_si _ _ So).
  unfold rotate_vector, Bad3.
  assert (K : forall X Y : tens, Bad X -> Bad Y ->
     let v := (let x2 := X in let y2 := (o_cos_incl (tt_orbit o) * Y)%num in let Z := (- o_sin_incl (tt_orbit o) * Y)%num in
       match o_Omega (tt_orbit o) with None => (x2, y2, Z) | Some w0 => ((O_cos w0 * x2 - O_sin w0 * y2)%num, (O_sin w0 * x2 + O_cos w0 * y2)%num, Z) end) in
     Bad (fst (fst v)) /\ Bad (snd (fst v)) /\ Bad (snd v)).
  { intros X Y HX HY. cbv zeta. destruct (o_Omega (tt_orbit o)) as [w0|]; cbn [fst snd].
    - destruct S2 as [S2 S2']. split; [x3|split; x3].
    - split; [x3|split; x3]. }
  destruct (o_ecc (tt_orbit o)) as [d|].
  - destruct S1 as (_ & Sc & Ss). apply K; x3.
  - apply K; assumption.
Qed.
Lemma pos_bad (a : tens) : Sn n a -> Bad3 (position_nodelay k (tt_orbit o) (ttv_warp o) a t None true).
Proof.
  intros Ha. destruct sunder_facts as (So & _). assert (S1 := os_ecc _ _ So).
  unfold position_nodelay, true_anomaly. assert (XM := mean_bad). set (M := (_ * o_n (tt_orbit o))%num) in *.
  destruct (o_ecc (tt_orbit o)) as [d|].
  - destruct S1 as (Se & _ & _). apply rot_bad; x3.
  - apply rot_bad; x3.
Qed.
Lemma vel_bad (m : tens) : Sn n m -> Bad3 (get_velocity (tt_orbit o) (ttv_warp o) m t).
Proof.
  intros Ha. destruct sunder_facts as (So & _). assert (S1 := os_ecc _ _ So). assert (S2 := os_K0 _ _ So).
  unfold get_velocity, true_anomaly. assert (XM := mean_bad). set (M := (_ * o_n (tt_orbit o))%num) in *.
  destruct (o_ecc (tt_orbit o)) as [d|].
  - destruct S1 as (Se & _ & _). apply rot_bad; x3.
  - apply rot_bad; x3.
Qed.
Lemma sqz_bad v : Bad3 v -> Bad3 (sqz3 v).
Proof. destruct v as [[x y] z]. intros (A & B & C). unfold Bad3, Bad in *. cbn in *. rewrite A, B, C. repeat split. Qed.
Lemma no_motion b : Bad3 (tpos k o b t None false) /\ Bad3 (tvel o b t).
Proof.
  destruct sunder_facts as (So & _). split; destruct b; unfold tpos, tvel, get_planet_position, get_star_position, get_relative_position, get_position, get_planet_velocity, get_star_velocity, get_relative_velocity; apply sqz_bad.
  - apply pos_bad, (os_ap _ _ So).
  - apply pos_bad, (os_as _ _ So).
  - apply pos_bad, (Sn_map n fneg), (os_a _ _ So).
  - apply vel_bad, (Sn_map n fneg), (os_ms _ _ So).
  - apply vel_bad, (os_mp _ _ So).
  - apply vel_bad, (Sn_map n fneg), (os_mt _ _ So).
Qed.
End Bad.
End E.
