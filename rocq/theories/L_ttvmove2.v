(** * TTVOrbit between transits: motion *)
From Coq Require Import Reals Lra Lia Psatz List Bool Arith ZArith Sorted.
From Coquelicot Require Import Coquelicot.
From Verif Require Import Num CoreOps Inst M_units M_kepler M_fin M_tensor M_ttv Spec_orbit Spec_params Spec_array Spec_light Spec_ttv Spec_cont Spec_ttvmove
  L_real L_kepop L_orbit L_motion L_pmotion L_pmotion4 L_pmotion5 L_ident L_cont L_ttv2 L_ttv3 L_ttv8 L_params3 L_transit6 L_ttvmove.
Import ListNotations.
Open Scope R_scope.

(** the planet is at the same place after whole periods only *)
Section I.
Variables (k : consts) (x : kargs R) (o : orbit R).
Hypothesis kok : consts_ok k.
Hypothesis Hinit : kep_init k x = Ok o.
Hypothesis Hph : physical o.
Let F := kep_init_facts k kok x o Hinit Hph.
Lemma lin_px c t : dot (lin o c t) (Pv o) = c * px o t.
Proof.
  assert (A := PP k kok x o Hinit Hph). assert (B := PQ k kok x o Hinit Hph). unfold lin, dot, vadd, vscale, vx, vy, vz in *. destruct (Pv o) as [[p1 p2] p3], (Qv o) as [[q1 q2] q3]. cbn in *.
  transitivity (c * px o t * (p1 * p1 + p2 * p2 + p3 * p3) + c * py o t * (p1 * q1 + p2 * q2 + p3 * q3)); [ring|]. rewrite A, B. ring.
Qed.
Lemma lin_py c t : dot (lin o c t) (Qv o) = c * py o t.
Proof.
  assert (A := QQ k kok x o Hinit Hph). assert (B := PQ k kok x o Hinit Hph). unfold lin, dot, vadd, vscale, vx, vy, vz in *. destruct (Pv o) as [[p1 p2] p3], (Qv o) as [[q1 q2] q3]. cbn in *.
  transitivity (c * py o t * (q1 * q1 + q2 * q2 + q3 * q3) + c * px o t * (p1 * q1 + p2 * q2 + p3 * q3)); [ring|]. rewrite A, B. ring.
Qed.
Lemma same_place t s : pos k o Relative t None false = pos k o Relative s None false -> exists z : Z, t = s + IZR z * o_period o.
Proof.
  intro E. rewrite !(pos_lin k kok x o Hinit Hph) in E. cbn [a_of] in E. assert (Ha := ph_a _ Hph).
  assert (E1 := f_equal (fun p => dot p (Pv o)) E). assert (E2 := f_equal (fun p => dot p (Qv o)) E). cbv beta in E1, E2. rewrite !lin_px in E1. rewrite !lin_py in E2.
  apply Rmult_eq_reg_l in E1; [|lra]. apply Rmult_eq_reg_l in E2; [|lra]. unfold px, py in E1, E2. assert (Hq := qo_pos o Hph). apply Rmult_eq_reg_l in E2; [|lra].
  assert (C : cos (Eof o t) = cos (Eof o s)) by lra.
  assert (D : Dof o t = Dof o s) by (unfold Dof; rewrite C; reflexivity).
  apply (th_inj k x o kok Hinit Hph); unfold thc, ths; change (ecc_of o) with (eo o); rewrite !(cosf_form o), !(sinf_form o), C, D, E2; reflexivity.
Qed.
End I.

Lemma tends_late (f g : nat -> R * R * R) v N : (forall q, (N <= q)%nat -> f q = g q) -> vec_tends f v -> vec_tends g v.
Proof. intros H (A & B & C). repeat split; (eapply cv_late; [|eassumption]; intros q Hq; cbv beta; rewrite (H q Hq); reflexivity). Qed.
Lemma tends_unique f v w : vec_tends f v -> vec_tends f w -> v = w.
Proof.
  intros (A & B & C) (A' & B' & C'). destruct v as [[v1 v2] v3], w as [[w1 w2] w3]. cbn in *.
  rewrite (UL_sequence _ _ _ A A'), (UL_sequence _ _ _ B B'), (UL_sequence _ _ _ C C'). reflexivity.
Qed.
Lemma eventually_near ts t d : Un_cv ts t -> 0 < d -> exists N, forall q, (N <= q)%nat -> Rabs (ts q - t) < d.
Proof. intros H D. destruct (H d D) as [N Q]. exists N. intros q Hq. apply (Q q Hq). Qed.
Lemma table_same n N V f g : is_table3 n N V f -> is_table3 n N V g -> forall m j, (m < N)%nat -> (j < n)%nat -> f m j = g m j.
Proof.
  intros ((_ & A1) & (_ & A2) & (_ & A3)) ((_ & B1) & (_ & B2) & (_ & B3)) m j Hm Hj.
  specialize (A1 m j Hm Hj). specialize (A2 m j Hm Hj). specialize (A3 m j Hm Hj). specialize (B1 m j Hm Hj). specialize (B2 m j Hm Hj). specialize (B3 m j Hm Hj).
  cbv beta in *. rewrite A1 in B1. rewrite A2 in B2. rewrite A3 in B3. destruct (f m j) as [[a b] c], (g m j) as [[a' b'] c']. cbn in *. congruence.
Qed.
Lemma fin3_inj p q : fin3 p = fin3 q -> p = q.
Proof. destruct p as [[a b] c], q as [[a' b'] c']. unfold fin3, map_vec. cbn. intro H. congruence. Qed.

Section M.
Variables (k : consts) (n : nat) (o : ttvorbit) (os : nat -> orbit R) (tts : nat -> list R).
Hypothesis kok : consts_ok k.
Hypothesis sys : ttv_system k n o os tts.

Lemma motion_known : exists X V, ttv_motion k n o X V.
Proof.
  destruct (near_exists k n o os tts sys) as [near Hn].
  exists (fun b j t => pos k (os j) b (orbit_time os near j t) None false), (fun b j t => vel (os j) b (orbit_time os near j t)).
  intros N t ts b Ht Hts. destruct (ttv_tables k n N o os tts t ts kok sys Ht Hts) as (v & Hv & T). destruct (T b) as [T1 T2].
  assert (E : forall m j, (m < N)%nat -> (j < n)%nat -> v m j = near j (ts m)).
  { intros m j Hm Hj. apply (nearest_unique (tts j) (ts m)); [apply Hv; assumption|apply Hn, Hj]. }
  split; [destruct T1 as ((S1 & A1) & (S2 & A2) & (S3 & A3))|destruct T2 as ((S1 & A1) & (S2 & A2) & (S3 & A3))];
    (split; [|split]; (split; [assumption|]); intros m j Hm Hj; unfold orbit_time; rewrite <- (E m j Hm Hj); auto).
Qed.
Variables X V : body -> nat -> R -> R * R * R.
Hypothesis HM : ttv_motion k n o X V.
Lemma motion_at b j t v : (j < n)%nat -> nearest (tts j) t v ->
  X b j t = pos k (os j) b (o_t0 (os j) + (t - v)) None false /\ V b j t = vel (os j) b (o_t0 (os j) + (t - v)).
Proof.
  intros Hj Hv. assert (Ht := vector_is 1 (fun _ => t)). assert (Hts : forall m, (m < 1)%nat -> aget (vector 1 (fun _ => t)) (at_time m) = Fin ((fun _ => t) m)) by (intros m Hm; apply (vector_at 1 (fun _ => t) m Hm)).
  destruct (ttv_tables k n 1 o os tts _ _ kok sys Ht Hts) as (w & Hw & T). destruct (T b) as [T1 T2]. destruct (HM 1%nat _ _ b Ht Hts) as [M1 M2].
  assert (E : w 0%nat j = v) by (apply (nearest_unique (tts j) t); [apply (Hw 0%nat j); [lia|exact Hj]|exact Hv]).
  assert (Q1 := table_same _ _ _ _ _ M1 T1 0%nat j ltac:(lia) Hj). assert (Q2 := table_same _ _ _ _ _ M2 T2 0%nat j ltac:(lia) Hj). cbv beta in Q1, Q2. rewrite E in Q1, Q2.
  split; apply fin3_inj; assumption.
Qed.
Lemma under_j j : (j < n)%nat -> exists x, kep_init k x = Ok (os j) /\ physical (os j).
Proof. intro Hj. destruct (under k n o os tts sys) as (x & xs & _ & S). exists (xs j). split; [apply (sy_init _ _ _ _ _ S j Hj)|apply (sy_phys _ _ _ _ _ S j Hj)]. Qed.
Lemma shift_period b j s (z : Z) : (j < n)%nat -> pos k (os j) b (s + IZR z * o_period (os j)) None false = pos k (os j) b s None false /\ vel (os j) b (s + IZR z * o_period (os j)) = vel (os j) b s.
Proof. intro Hj. destruct (under_j j Hj) as (x & Hi & Hp). destruct (periodic_motion k x (os j) s z None false None None kok Hi Hp) as (A & _). destruct (A b) as (A1 & A2 & _). split; assumption. Qed.
(** around a time that is not the middle of two transits, or the middle of two that are whole periods apart *)
Lemma local_shift j t : (j < n)%nat -> (forall u v, consecutive (tts j) u v -> t = (u + v) / 2 -> whole (v - u) (o_period (os j))) ->
  exists c d, 0 < d /\ forall s b, Rabs (s - t) < d -> X b j s = pos k (os j) b (o_t0 (os j) + (s - c)) None false /\ V b j s = vel (os j) b (o_t0 (os j) + (s - c)).
Proof.
  intros Hj H. destruct (near_exists k n o os tts sys) as [near Hn]. assert (Nt := Hn j t Hj). set (c := near j t) in *. exists c.
  destruct (around (tts j) t c (tv_inc _ _ _ _ _ sys j Hj) Nt) as [(d & D & Q)|(v & C & Et & d & D & Q)]; exists d; (split; [exact D|]); intros s b Hs.
  - apply motion_at; [exact Hj|apply Q, Hs].
  - destruct (Q s Hs) as [Q1 Q2]. destruct (Rle_lt_dec s t) as [L|L]; [apply motion_at; [exact Hj|apply Q1, L]|].
    destruct (motion_at b j s v Hj (Q2 L)) as [A B]. destruct (H c v C Et) as [z E]. rewrite A, B.
    destruct (shift_period b j (o_t0 (os j) + (s - v)) z Hj) as [P1 P2]. rewrite <- P1, <- P2. replace (o_t0 (os j) + (s - v) + IZR z * o_period (os j)) with (o_t0 (os j) + (s - c)); [split; reflexivity|]. rewrite <- E. ring.
Qed.
Lemma vderive_shift f a t d : vderive f (a + t) d -> vderive (fun s => f (a + s)) t d.
Proof.
  assert (G : forall (g : R -> R) l, is_derive g (a + t) l -> is_derive (fun s => g (a + s)) t l).
  { intros g l H. evar_last; [apply (is_derive_comp g (fun s => a + s)); [exact H|]|].
    - evar_last; [apply (is_derive_plus (fun _ => a) (fun s => s)); [apply is_derive_const|apply is_derive_id]|reflexivity].
    - unfold scal, plus, zero, one; simpl; unfold mult; simpl. ring. }
  intros (A & B & C). split; [|split]; [apply (G (fun s => vx (f s)))|apply (G (fun s => vy (f s)))|apply (G (fun s => vz (f s)))]; assumption.
Qed.
Lemma vderive_local f g t d e : 0 < e -> (forall s, Rabs (s - t) < e -> f s = g s) -> vderive f t d -> vderive g t d.
Proof.
  intros He H (A & B & C). assert (L : forall h : R * R * R -> R, locally t (fun s => h (f s) = h (g s))).
  { intro h. exists (mkposreal e He). intros s Hs. rewrite (H s Hs). reflexivity. }
  split; [|split]; [apply (is_derive_ext_loc (fun s => vx (f s)))|apply (is_derive_ext_loc (fun s => vy (f s)))|apply (is_derive_ext_loc (fun s => vz (f s)))]; auto.
Qed.
Lemma ttv_velocity b j t : (j < n)%nat -> (forall u v, consecutive (tts j) u v -> t = (u + v) / 2 -> whole (v - u) (o_period (os j))) -> vderive (X b j) t (V b j t).
Proof.
  intros Hj H. destruct (local_shift j t Hj H) as (c & d & D & Q). destruct (under_j j Hj) as (x & Hi & Hp).
  assert (Vt : V b j t = vel (os j) b ((o_t0 (os j) - c) + t)).
  { destruct (Q t b) as [_ ->]; [rewrite Rminus_eq_0, Rabs_R0; exact D|]. f_equal. ring. }
  apply (vderive_local (fun s => pos k (os j) b ((o_t0 (os j) - c) + s) None false) _ _ _ d D).
  - intros s Hs. destruct (Q s b Hs) as [-> _]. f_equal. ring.
  - rewrite Vt. apply (vderive_shift (fun s => pos k (os j) b s None false)). apply (velocity_is_derivative k x (os j) b _ kok Hi Hp).
Qed.
Lemma pos_cont b j t ts : (j < n)%nat -> Un_cv ts t -> vec_tends (fun q => pos k (os j) b (ts q) None false) (pos k (os j) b t None false).
Proof.
  intros Hj H. destruct (under_j j Hj) as (x & Hi & Hp). destruct (velocity_is_derivative k x (os j) b t kok Hi Hp) as (A & B & C).
  assert (G : forall (g : R -> R) l, is_derive g t l -> Un_cv (fun q => g (ts q)) (g t)).
  { intros g l D. apply cv_app; [|exact H]. apply continuity_pt_filterlim. apply (ex_derive_continuous (V := R_NormedModule)). eexists. exact D. }
  split; [|split]; [apply (G (fun s => vx (pos k (os j) b s None false)) _ A)|apply (G (fun s => vy (pos k (os j) b s None false)) _ B)|apply (G (fun s => vz (pos k (os j) b s None false)) _ C)].
Qed.
Lemma shifted_cv ts t c : Un_cv ts t -> Un_cv (fun q => c + ts q) (c + t).
Proof. intro H. apply CV_plus; [apply cv_const|exact H]. Qed.
(** the two sides of the middle of two transits *)
Lemma mid_sides b j u v : (j < n)%nat -> consecutive (tts j) u v -> let m := (u + v) / 2 in
  X b j m = pos k (os j) b (o_t0 (os j) + (v - u) / 2) None false /\ V b j m = vel (os j) b (o_t0 (os j) + (v - u) / 2) /\
  (forall ts, Un_cv ts m -> (forall q, ts q <= m) -> vec_tends (fun q => X b j (ts q)) (X b j m)) /\
  (forall ts, Un_cv ts m -> (forall q, m < ts q) -> vec_tends (fun q => X b j (ts q)) (pos k (os j) b (o_t0 (os j) - (v - u) / 2) None false)).
Proof.
  intros Hj C m. assert (So := tv_inc _ _ _ _ _ sys j Hj). destruct (consec_gap _ _ _ So C) as (L & _). unfold m in *.
  destruct (motion_at b j ((u + v) / 2) u Hj) as [A B]; [apply (mid_left _ u v _ So C); lra|]. replace ((u + v) / 2 - u) with ((v - u) / 2) in A, B by field.
  split; [exact A|]. split; [exact B|]. split; intros ts Ht Hs; destruct (eventually_near ts _ ((v - u) / 2) Ht ltac:(lra)) as [N HN].
  - rewrite A. apply (tends_late (fun q => pos k (os j) b ((o_t0 (os j) - u) + ts q) None false) _ _ N).
    + intros q Hq. specialize (HN q Hq). apply Rabs_def2 in HN. specialize (Hs q). symmetry.
      destruct (motion_at b j (ts q) u Hj) as [-> _]; [apply (mid_left _ u v _ So C); lra|]. f_equal. ring.
    + replace (o_t0 (os j) + (v - u) / 2) with ((o_t0 (os j) - u) + (u + v) / 2) by field. apply pos_cont; [exact Hj|]. apply shifted_cv, Ht.
  - apply (tends_late (fun q => pos k (os j) b ((o_t0 (os j) - v) + ts q) None false) _ _ N).
    + intros q Hq. specialize (HN q Hq). apply Rabs_def2 in HN. specialize (Hs q). symmetry.
      destruct (motion_at b j (ts q) v Hj) as [-> _]; [apply (mid_right _ u v _ So C); lra|]. f_equal. ring.
    + replace (o_t0 (os j) - (v - u) / 2) with ((o_t0 (os j) - v) + (u + v) / 2) by field. apply pos_cont; [exact Hj|]. apply shifted_cv, Ht.
Qed.
Lemma approach m : Un_cv (fun q => m + / (INR q + 1)) m.
Proof.
  intros e He. destruct (archimed_cor1 e He) as (N & H1 & H2). exists N. intros q Hq. unfold R_dist. replace (m + / (INR q + 1) - m) with (/ (INR q + 1)) by ring.
  assert (I0 : 0 < INR N) by (apply lt_0_INR; exact H2). assert (I1 : INR N <= INR q) by (apply le_INR; lia). rewrite Rabs_pos_eq by (left; apply Rinv_0_lt_compat; lra).
  eapply Rle_lt_trans; [|exact H1]. apply Rinv_le_contravar; lra.
Qed.
Lemma steady_iff j u v : (j < n)%nat -> consecutive (tts j) u v ->
  (continuous_at (X Relative j) ((u + v) / 2) <-> whole (v - u) (o_period (os j))).
Proof.
  intros Hj C. split.
  - intro H. destruct (mid_sides Relative j u v Hj C) as (A & _ & _ & Rt). destruct (under_j j Hj) as (x & Hi & Hp).
    assert (Cv := approach ((u + v) / 2)). assert (T1 := H _ Cv). assert (T2 := Rt _ Cv).
    assert (E : X Relative j ((u + v) / 2) = pos k (os j) Relative (o_t0 (os j) - (v - u) / 2) None false).
    { apply (tends_unique _ _ _ T1). apply T2. intro q. assert (0 < / (INR q + 1)) by (apply Rinv_0_lt_compat; generalize (pos_INR q); lra). lra. }
    rewrite A in E. destruct (same_place k x (os j) kok Hi Hp _ _ E) as [z Ez]. exists z. lra.
  - intros W ts Ht. destruct (local_shift j ((u + v) / 2) Hj) as (c & d & D & Q).
    { intros u' v' C' E. assert (So := tv_inc _ _ _ _ _ sys j Hj). destruct (consec_gap _ _ _ So C) as (L & I1 & I2 & G). destruct (consec_gap _ _ _ So C') as (L' & I1' & I2' & G').
      destruct (G u' I1') as [U|U]; destruct (G' u I1) as [U'|U'].
      - replace u' with u by lra. replace v' with v by lra. exact W.
      - exfalso. lra.
      - exfalso. lra.
      - exfalso. lra. }
    destruct (eventually_near ts _ d Ht D) as [N HN].
    destruct (Q ((u + v) / 2) Relative) as [-> _]; [rewrite Rminus_eq_0, Rabs_R0; exact D|].
    apply (tends_late (fun q => pos k (os j) Relative ((o_t0 (os j) - c) + ts q) None false) _ _ N).
    + intros q Hq. destruct (Q (ts q) Relative (HN q Hq)) as [-> _]. f_equal. ring.
    + replace (o_t0 (os j) + ((u + v) / 2 - c)) with ((o_t0 (os j) - c) + (u + v) / 2) by ring. apply pos_cont; [exact Hj|]. apply shifted_cv, Ht.
Qed.
(** before the first and after the last transit *)
Lemma ends b j t (q : nat) : (j < n)%nat ->
  ((forall v, In v (tts j) -> t <= v) -> X b j (t - INR q * o_period (os j)) = X b j t /\ V b j (t - INR q * o_period (os j)) = V b j t) /\
  ((forall v, In v (tts j) -> v <= t) -> X b j (t + INR q * o_period (os j)) = X b j t /\ V b j (t + INR q * o_period (os j)) = V b j t).
Proof.
  intro Hj. destruct (under_j j Hj) as (x & Hi & Hp). assert (P := ph_period _ Hp). assert (Q0 := pos_INR q). assert (QP : 0 <= INR q * o_period (os j)) by (apply Rmult_le_pos; lra).
  destruct (near_exists k n o os tts sys) as [near Hn]. assert (Nt := Hn j t Hj). set (c := near j t) in *. destruct (motion_at b j t c Hj Nt) as [A B]. destruct Nt as [Ic Hc].
  split; intro H.
  - destruct (motion_at b j (t - INR q * o_period (os j)) c Hj) as [A' B'].
    { split; [exact Ic|]. intros w Hw. assert (H1 := H c Ic). assert (H2 := H w Hw). destruct (Hc w Hw) as [H3 H4]. rewrite (Rabs_left1 (t - c)), (Rabs_left1 (t - w)) in * by lra.
      rewrite (Rabs_left1 (_ - c)), (Rabs_left1 (_ - w)) by lra. split; intros; lra. }
    rewrite A, B, A', B'. rewrite INR_IZR_INZ. destruct (shift_period b j (o_t0 (os j) + (t - IZR (Z.of_nat q) * o_period (os j) - c)) (Z.of_nat q) Hj) as [S1 S2]. rewrite <- S1, <- S2. split; f_equal; ring.
  - destruct (motion_at b j (t + INR q * o_period (os j)) c Hj) as [A' B'].
    { split; [exact Ic|]. intros w Hw. assert (H1 := H c Ic). assert (H2 := H w Hw). destruct (Hc w Hw) as [H3 H4]. rewrite (Rabs_pos_eq (t - c)), (Rabs_pos_eq (t - w)) in * by lra.
      rewrite (Rabs_pos_eq (_ - c)), (Rabs_pos_eq (_ - w)) by lra. split; intros; lra. }
    rewrite A, B, A', B'. rewrite INR_IZR_INZ. destruct (shift_period b j (o_t0 (os j) + (t - c)) (Z.of_nat q) Hj) as [S1 S2]. rewrite <- S1, <- S2. split; f_equal; ring.
Qed.
End M.
