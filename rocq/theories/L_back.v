(** * Orbits that run backwards *)
From Coq Require Import Reals List Bool Arith ZArith Lra Lia Psatz.
From Verif Require Import Num CoreOps Inst CoreFlux M_units M_kepler M_fin M_tensor M_simple M_ttv M_limbdark M_secondary
  Spec_orbit Spec_params Spec_array Spec_light Spec_secondary Spec_delay Spec_sym Spec_back
  L_real L_kepop L_orbit L_params3 L_fl L_fl2 L_fl3 L_tens L_shape L_shapeS L_transit3 L_transit4 L_array L_motion L_pmotion L_node.
Import ListNotations.
Local Notation length := List.length.
Open Scope R_scope.

Definition ecc_back (ed ed' : option (eccd R)) : Prop :=
  match ed, ed' with
  | None, None => True
  | Some d, Some d' => e_ecc d' = e_ecc d /\ e_cosw d' = - e_cosw d /\ e_sinw d' = e_sinw d /\
      (e_cosw d * e_cosw d + e_sinw d * e_sinw d <> 0 -> cos (e_omega d') = - cos (e_omega d) /\ sin (e_omega d') = sin (e_omega d))
  | _, _ => False
  end.
Definition M0_back (o : orbit R) : R := match o_ecc o with None => o_M0 o | Some _ => - o_M0 o end.
Definition set_back (T : R) (ed : option (eccd R)) (o : orbit R) : orbit R :=
  {| o_a := o_a o; o_period := o_period o; o_rho_star := o_rho_star o; o_r_star := o_r_star o;
     o_m_star := o_m_star o; o_m_planet := o_m_planet o; o_m_total := o_m_total o;
     o_n := o_n o; o_a_star := o_a_star o; o_a_planet := o_a_planet o; o_K0 := o_K0 o;
     o_Omega := o_Omega o; o_ecc := ed; o_M0 := M0_back o; o_dcosidb := o_dcosidb o;
     o_b := o_b o; o_cos_incl := o_cos_incl o; o_incl := o_incl o; o_sin_incl := o_sin_incl o;
     o_t0 := T; o_tper := (T - M0_back o / o_n o)%num; o_tref := ((T - M0_back o / o_n o) - T)%num; o_jac := o_jac o; o_duration := o_duration o |}.

Lemma Ratan2_odd y x : 0 <= x -> Ratan2 (- y) x = - Ratan2 y x.
Proof.
  intro H. unfold Ratan2. destruct (Rlt_dec 0 x).
  - rewrite <- atan_opp. f_equal. unfold Rdiv. ring.
  - destruct (Rlt_dec x 0); [lra|]. destruct (Rlt_dec 0 (- y)), (Rlt_dec (- y) 0), (Rlt_dec 0 y), (Rlt_dec y 0); lra.
Qed.
Lemma sqrt_pos' x : 0 <= sqrt x.
Proof. apply sqrt_pos. Qed.
Lemma back_M0 (d d' : eccd R) : e_sinw d = e_sinw d' -> e_ecc d' = e_ecc d -> e_cosw d' = - e_cosw d -> -1 <= e_sinw d -> kep_M0 d' = - kep_M0 d.
Proof.
  intros Hs He Hc H. unfold kep_M0. rewrite <- Hs, He, Hc. cbn. set (q := sqrt (1 - e_ecc d)). set (p := sqrt (1 + e_ecc d)).
  replace (q * - e_cosw d) with (- (q * e_cosw d)) by ring. rewrite Ratan2_odd.
  - rewrite <- (Ropp_mult_distr_r 2), sin_neg. ring.
  - apply Rmult_le_pos; [apply sqrt_pos'|lra].
Qed.
Lemma back_omega (x : kargs R) T ed : kep_omega x = Ok ed -> exists ed', kep_omega (backwards x T) = Ok ed' /\ ecc_back ed ed'.
Proof.
  unfold kep_omega, backwards. cbn [ka_ecc ka_omega ka_sin_omega ka_cos_omega]. destruct (ka_ecc x) as [e|]; [|intro H; apply Ok_inj in H; subst; exists None; split; [reflexivity|exact I]].
  destruct (ka_omega x) as [w|]; cbn [option_map].
  - intro H. exists (Some {| e_ecc := e; e_omega := PI - w; e_cosw := cos (PI - w); e_sinw := sin (PI - w) |}).
    assert (E : is_none (option_map Ropp (ka_cos_omega x)) = is_none (ka_cos_omega x)) by (destruct (ka_cos_omega x); reflexivity). rewrite E.
    destruct (negb (is_none (ka_sin_omega x)) && negb (is_none (ka_cos_omega x))); [discriminate H|]. apply Ok_inj in H. subst ed. split; [reflexivity|].
    cbn [ecc_back e_ecc e_omega e_cosw e_sinw]. assert (C := Rtrigo_facts.cos_pi_minus w). assert (S := sin_PI_x w). split; [reflexivity|]. split; [exact C|]. split; [exact S|]. intros _. split; assumption.
  - destruct (ka_sin_omega x) as [s|]; [|discriminate]. destruct (ka_cos_omega x) as [c|]; [|discriminate]. cbn [option_map]. intro H. apply Ok_inj in H. subst ed.
    eexists. split; [reflexivity|]. cbn [ecc_back e_ecc e_omega e_cosw e_sinw]. split; [reflexivity|]. split; [reflexivity|]. split; [reflexivity|]. intro H0.
    assert (P := Ratan2_polar s c H0). assert (P' := Ratan2_polar s (- c)). replace (- c * - c + s * s) with (c * c + s * s) in P' by ring. specialize (P' H0).
    destruct P as [P1 P2], P' as [P3 P4]. change (cos (Ratan2 s (- c)) = - cos (Ratan2 s c) /\ sin (Ratan2 s (- c)) = sin (Ratan2 s c)). rewrite P1, P2, P3, P4. split; [unfold Rdiv; ring|reflexivity].
Qed.
Lemma back_init k (x : kargs R) o T : kep_init k x = Ok o -> (forall d, o_ecc o = Some d -> -1 <= e_sinw d) ->
  exists ed, kep_init k (backwards x T) = Ok (set_back T ed o) /\ ecc_back (o_ecc o) ed.
Proof.
  unfold kep_init. change (kep_units (backwards x T)) with (kep_units x). change (kep_duration (backwards x T)) with (kep_duration x).
  change (ka_period (backwards x T)) with (ka_period x). change (ka_m_star (backwards x T)) with (ka_m_star x). change (ka_Omega (backwards x T)) with (ka_Omega x).
  destruct (kep_units x) as [[mp rho]|]; cbn [rbind]; [|discriminate].
  destruct (kep_duration x) as [[[[a rs] dur] da]|]; cbn [rbind]; [|discriminate].
  destruct (consistent_inputs k a (ka_period x) rho rs (ka_m_star x) mp) as [[[[[[a' p] rho'] rs'] ms] mp']|]; cbn [rbind]; [|discriminate].
  destruct (kep_omega x) as [ed|] eqn:EW; cbn [rbind]; [|discriminate]. destruct (back_omega x T ed EW) as (ed' & EW' & EB). rewrite EW'. cbn [rbind].
  set (n := (#2 * nlit PI / p)%num). set (ap := ((- a')%num * ms / (ms + mp'))%num).
  assert (F : match ed' with None => #1 | Some d => ((#1 + e_ecc d * e_sinw d) / (#1 - e_ecc d ^ 2)) end%num = match ed with None => #1 | Some d => ((#1 + e_ecc d * e_sinw d) / (#1 - e_ecc d ^ 2)) end%num).
  { unfold ecc_back in EB. destruct ed as [d|], ed' as [d'|]; try contradiction; [|reflexivity]. destruct EB as (E1 & E2 & E3 & _). rewrite E1, E3. reflexivity. }
  assert (K : forall K0, match ed' with None => K0 | Some d => (K0 / nsqrt (#1 - e_ecc d ^ 2)) end%num = match ed with None => K0 | Some d => (K0 / nsqrt (#1 - e_ecc d ^ 2)) end%num).
  { intro K0. unfold ecc_back in EB. destruct ed as [d|], ed' as [d'|]; try contradiction; [|reflexivity]. destruct EB as (E1 & E2 & E3 & _). rewrite E1. reflexivity. }
  rewrite F, K. set (f := match ed with None => #1 | Some d => _ end%num). set (dc := (f * rs' / a')%num).
  assert (I : kep_incl k (backwards x T) dur ed' f dc a' p ap rs' = kep_incl k x dur ed f dc a' p ap rs').
  { unfold kep_incl. change (ka_b (backwards x T)) with (ka_b x). change (ka_incl (backwards x T)) with (ka_incl x). destruct (ka_b x); [reflexivity|]. destruct (ka_incl x); [reflexivity|]. destruct dur as [q|]; [|reflexivity].
    unfold ecc_back in EB. destruct ed as [d|], ed' as [d'|]; try contradiction; [|reflexivity]. destruct EB as (E1 & E2 & E3 & _). unfold ecc_duration_b. rewrite E1, E3. reflexivity. }
  rewrite I. destruct (kep_incl k x dur ed f dc a' p ap rs') as [[[[bb ci] ii] du]|]; cbn [rbind]; [|discriminate].
  assert (KT : forall M, kep_times (backwards x T) p M n = Ok (T, (T - M / n)%num)) by reflexivity. rewrite KT. cbn [rbind].
  match goal with |- context [kep_times x ?a ?b ?c] => destruct (kep_times x a b c) as [[t0 tp]|] end; cbn [rbind]; [|discriminate].
  intros H Hd. apply Ok_inj in H. subst o. cbn [o_ecc] in Hd. exists ed'. split; [|exact EB].
  assert (M : match ed' with None => (#(0.5) * nlit PI + nzl n)%num | Some d => kep_M0 d end = M0_back {| o_a := a'; o_period := p; o_rho_star := rho'; o_r_star := rs'; o_m_star := ms; o_m_planet := mp'; o_m_total := a'; o_n := n; o_a_star := a'; o_a_planet := a'; o_K0 := a';
     o_Omega := None; o_ecc := ed; o_M0 := match ed with None => (#(0.5) * nlit PI + nzl n)%num | Some d => kep_M0 d end; o_dcosidb := dc; o_b := bb; o_cos_incl := ci; o_incl := ii; o_sin_incl := ii; o_t0 := t0; o_tper := tp; o_tref := tp; o_jac := None; o_duration := None |}).
  { unfold M0_back. cbn [o_ecc o_M0]. unfold ecc_back in EB. destruct ed as [d|], ed' as [d'|]; try contradiction; [|reflexivity]. destruct EB as (E1 & E2 & E3 & _). apply back_M0; [symmetry| | |apply Hd]; auto. }
  rewrite M. reflexivity.
Qed.

(** ** moving backwards about T *)
Definition refl (o : orbit R) (v : R * R) : R * R := match o_ecc o with None => (- fst v, snd v) | Some _ => (fst v, - snd v) end.
Record runs_back (T : R) (o o' : orbit R) : Prop := {
  rb_a : o_a o' = o_a o; rb_as : o_a_star o' = o_a_star o; rb_ap : o_a_planet o' = o_a_planet o; rb_K : o_K0 o' = o_K0 o;
  rb_ms : o_m_star o' = o_m_star o; rb_mp : o_m_planet o' = o_m_planet o; rb_mt : o_m_total o' = o_m_total o;
  rb_Om : o_Omega o' = o_Omega o; rb_ci : o_cos_incl o' = o_cos_incl o; rb_si : o_sin_incl o' = o_sin_incl o;
  rb_ecc : match o_ecc o, o_ecc o' with
           | None, None => True
           | Some d, Some d' => e_ecc d' = e_ecc d /\ e_cosw d' = - e_cosw d /\ e_sinw d' = e_sinw d
           | _, _ => False end;
  rb_ta : forall pad t, (snd (true_anomaly o' (kep_warp o') pad (2 * T - t)), fst (true_anomaly o' (kep_warp o') pad (2 * T - t)))
                        = refl o (snd (true_anomaly o (kep_warp o) pad t), fst (true_anomaly o (kep_warp o) pad t)) }.
Lemma kepler_cosf_even M e : Rabs e < 1 -> kepler_cosf (- M) e = kepler_cosf M e.
Proof. intro H. unfold kepler_cosf. rewrite (ecc_anom_odd M e H), cos_neg. reflexivity. Qed.
Lemma kepler_sinf_odd M e : Rabs e < 1 -> kepler_sinf (- M) e = - kepler_sinf M e.
Proof. intro H. unfold kepler_sinf. rewrite (ecc_anom_odd M e H), cos_neg, sin_neg. unfold Rdiv. ring. Qed.
Lemma warp_R (o : orbit R) pad t : (kep_warp o pad t - o_tref o)%num = t - o_t0 o - o_tref o.
Proof. unfold kep_warp. destruct pad; reflexivity. Qed.
Lemma make_back k T x o x' o' : consts_ok k -> kep_init k x = Ok o -> physical o -> kep_init k x' = Ok o' -> physical o' ->
  o_a o' = o_a o -> o_period o' = o_period o -> o_m_star o' = o_m_star o -> o_m_planet o' = o_m_planet o ->
  o_Omega o' = o_Omega o -> o_cos_incl o' = o_cos_incl o -> o_sin_incl o' = o_sin_incl o ->
  match o_ecc o, o_ecc o' with
  | None, None => exists z : Z, o_t0 o' = 2 * T - o_t0 o + IZR z * o_period o
  | Some d, Some d' => e_ecc d' = e_ecc d /\ e_cosw d' = - e_cosw d /\ e_sinw d' = e_sinw d /\ o_tper o' = 2 * T - o_tper o
  | _, _ => False end -> runs_back T o o'.
Proof.
  intros kok Hi Hp Hi' Hp' Ea EP Es Ep EO Ec Esi Ee. assert (F := kep_init_facts k kok x o Hi Hp). assert (F' := kep_init_facts k kok x' o' Hi' Hp').
  assert (Em : o_m_total o' = o_m_total o) by (rewrite (of_mtot _ _ _ F), (of_mtot _ _ _ F'), Es, Ep; reflexivity).
  assert (En : o_n o' = o_n o) by (rewrite (of_n _ _ _ F), (of_n _ _ _ F'), EP; reflexivity).
  assert (P := ph_period _ Hp). assert (Q := PI_RGT_0). assert (Nz : o_n o <> 0).
  { rewrite (of_n _ _ _ F). apply Rmult_integral_contrapositive_currified; [lra|apply Rinv_neq_0_compat; lra]. }
  constructor; try assumption.
  - rewrite (of_a_star _ _ _ F), (of_a_star _ _ _ F'), Ea, Ep, Em. reflexivity.
  - rewrite (of_a_planet _ _ _ F), (of_a_planet _ _ _ F'), Ea, Es, Em. reflexivity.
  - rewrite (of_K0 _ _ _ F), (of_K0 _ _ _ F'), En, Ea, Em. f_equal. f_equal. unfold ecc_of.
    destruct (o_ecc o), (o_ecc o'); try contradiction; [|reflexivity]. destruct Ee as (E1 & _). rewrite E1. reflexivity.
  - destruct (o_ecc o), (o_ecc o'); try contradiction; [|exact I]. destruct Ee as (E1 & E2 & E3 & _). split; [exact E1|]. split; assumption.
  - intros pad t. unfold true_anomaly, refl. rewrite !warp_R, (of_tref _ _ _ F), (of_tref _ _ _ F').
    replace (2 * T - t - o_t0 o' - (o_tper o' - o_t0 o')) with (2 * T - t - o_tper o') by ring. replace (t - o_t0 o - (o_tper o - o_t0 o)) with (t - o_tper o) by ring.
    assert (MO := of_M0_circ _ _ _ F). assert (MO' := of_M0_circ _ _ _ F'). assert (T0 := of_t0 _ _ _ F). assert (T0' := of_t0 _ _ _ F').
    assert (PE := ph_ecc _ Hp). destruct (o_ecc o) as [d|] eqn:ED, (o_ecc o') as [d'|] eqn:ED'; try contradiction; cbn [fst snd].
    + destruct Ee as (E1 & _ & _ & E4). rewrite E1, E4, En. specialize (PE d eq_refl). assert (A : Rabs (e_ecc d) < 1) by (rewrite Rabs_pos_eq; lra).
      cbn. rewrite !Rplus_0_r. replace ((2 * T - t - (2 * T - o_tper o)) * o_n o) with (- ((t - o_tper o) * o_n o)) by ring.
      apply f_equal2; [apply kepler_cosf_even, A|apply kepler_sinf_odd, A].
    + destruct Ee as [z Ez]. rewrite (MO eq_refl) in T0. rewrite (MO' eq_refl), En in T0'.
      assert (E : (2 * T - t - o_tper o') * o_n o' = (PI - (t - o_tper o) * o_n o) + IZR (- z) * (2 * PI)).
      { rewrite En. assert (H1 : o_tper o * o_n o = o_t0 o * o_n o - PI / 2) by (rewrite T0; field; exact Nz). assert (H2 : o_tper o' * o_n o = o_t0 o' * o_n o - PI / 2) by (rewrite T0'; field; exact Nz).
        replace ((2 * T - t - o_tper o') * o_n o) with (2 * T * o_n o - t * o_n o - o_tper o' * o_n o) by ring. rewrite H2, Ez.
        replace ((t - o_tper o) * o_n o) with (t * o_n o - o_tper o * o_n o) by ring. rewrite H1.
        assert (H3 : o_period o * o_n o = 2 * PI) by (rewrite (of_n _ _ _ F); field; lra). rewrite opp_IZR.
        replace ((2 * T - o_t0 o + IZR z * o_period o) * o_n o) with (2 * T * o_n o - o_t0 o * o_n o + IZR z * (o_period o * o_n o)) by ring. rewrite H3. field. }
      apply f_equal2; cbn -[IZR]; change ((2 * T - t - o_tper o') * o_n o') with ((2 * T - t - o_tper o') * o_n o'); rewrite E.
      * rewrite cos_sub_2PIk. apply Rtrigo_facts.cos_pi_minus.
      * rewrite sin_sub_2PIk. apply sin_PI_x.
Qed.
Section M.
Variables (k : consts) (T : R) (o o' : orbit R) (w : option R).
Hypothesis B : runs_back T o o'.
Hypothesis Ow : o_Omega o = node_of w.
Notation W := (match w with None => 0 | Some w => w end + PI / 2).
Notation tao := (true_anomaly o (kep_warp o)).
Notation tao' := (true_anomaly o' (kep_warp o')).
Lemma across_quarter v a : across (a + PI / 2) v = (- (cos (2 * a) * vx v + sin (2 * a) * vy v), - (sin (2 * a) * vx v - cos (2 * a) * vy v), vz v).
Proof. unfold across. replace (2 * (a + PI / 2)) with (2 * a + PI) by field. rewrite neg_cos, neg_sin. apply f_equal2; [apply f_equal2|reflexivity]; ring. Qed.
Lemma back_rotate v v' : v' = refl o v -> rotate_vector o' (fst v') (snd v') = across W (rotate_vector o (fst v) (snd v)).
Proof.
  intros ->. rewrite across_quarter. destruct v as [x y]. unfold rotate_vector, refl, vx, vy, vz. rewrite (rb_Om _ _ _ B), (rb_ci _ _ _ B), (rb_si _ _ _ B), Ow. assert (E := rb_ecc _ _ _ B).
  set (x1 := match o_ecc o with None => x | Some d => (e_cosw d * x - e_sinw d * y)%num end).
  set (y1 := match o_ecc o with None => y | Some d => (e_sinw d * x + e_cosw d * y)%num end).
  match goal with |- (let '(_, _) := ?A in _) = _ => assert (QA : A = (- x1, y1)) end.
  { subst x1 y1. destruct (o_ecc o) as [d|], (o_ecc o') as [d'|]; try contradiction; cbn [fst snd].
    - destruct E as (_ & E2 & E3). rewrite E2, E3. apply f_equal2; cbn; ring.
    - reflexivity. }
  rewrite QA. clear QA.
  match goal with |- _ = (- (_ * fst (fst (let '(_, _) := ?A in _)) + _), _, _) => assert (QA : A = (x1, y1)) by (subst x1 y1; destruct (o_ecc o); reflexivity) end.
  cbn [fst snd] in QA |- *. rewrite QA. clear QA. clearbody x1 y1. destruct w as [u|]; cbn [node_of O_cos O_sin fst snd].
  - assert (S := sin2_cos2 u). unfold Rsqr in S. apply f_equal2; [apply f_equal2|reflexivity]; rewrite cos_2a, sin_2a; cbn; set (c := cos u) in *; set (s := sin u) in *; set (ci := o_cos_incl o).
    + transitivity (- ((s * s + c * c) * (c * x1 + s * (ci * y1)))); [rewrite S|]; ring.
    + transitivity (- ((s * s + c * c) * (s * x1 - c * (ci * y1)))); [rewrite S|]; ring.
  - rewrite Rmult_0_r, cos_0, sin_0. apply f_equal2; [apply f_equal2|]; cbn; ring.
Qed.
Lemma refl_scale r c s : refl o (r * c, r * s) = (r * fst (refl o (c, s)), r * snd (refl o (c, s))).
Proof. unfold refl. destruct (o_ecc o); cbn [fst snd]; f_equal; ring. Qed.
Lemma back_radius pad t (f : R -> R) : match o_ecc o' with None => f 0 | Some d => f (e_ecc d * snd (tao' pad (2 * T - t))) end = match o_ecc o with None => f 0 | Some d => f (e_ecc d * snd (tao pad t)) end.
Proof.
  assert (H := rb_ta _ _ _ B pad t). assert (E := rb_ecc _ _ _ B). unfold refl in H. destruct (o_ecc o), (o_ecc o'); try contradiction; [|reflexivity]. injection H as H1 H2. destruct E as (E1 & _). rewrite E1, H1. reflexivity.
Qed.
Lemma back_position a t par pad : position_nodelay k o' (kep_warp o') a (2 * T - t) par pad = across W (position_nodelay k o (kep_warp o) a t par pad).
Proof.
  unfold position_nodelay. assert (H := rb_ta _ _ _ B pad t). assert (E := rb_ecc _ _ _ B).
  destruct (tao pad t) as [s c]. destruct (tao' pad (2 * T - t)) as [s' c']. cbn [fst snd] in H.
  assert (Q : match o_ecc o' with None => a | Some d => (a * (#1 - e_ecc d ^ 2) / (#1 + e_ecc d * c'))%num end = match o_ecc o with None => a | Some d => (a * (#1 - e_ecc d ^ 2) / (#1 + e_ecc d * c))%num end).
  { unfold refl in H. destruct (o_ecc o), (o_ecc o'); try contradiction; [|reflexivity]. injection H as H1 H2. destruct E as (E1 & _). cbn [fst] in H1. rewrite E1, H1. reflexivity. }
  rewrite Q. set (r0 := match o_ecc o with None => a | Some _ => _ end). set (r := match par with None => r0 | Some p => _ end).
  apply (back_rotate (r * c, r * s) (r * c', r * s')). rewrite refl_scale, <- H. reflexivity.
Qed.
Lemma back_get_position a t par pad : get_position k o' (kep_warp o') a (2 * T - t) par false pad = across W (get_position k o (kep_warp o) a t par false pad).
Proof. apply back_position. Qed.
Lemma opposite_rotate x y : rotate_vector o (- x) (- y) = opposite (rotate_vector o x y).
Proof.
  unfold rotate_vector, opposite, vx, vy, vz. destruct (o_ecc o); destruct (o_Omega o); cbn [fst snd]; (apply f_equal2; [apply f_equal2|]); cbn; ring.
Qed.
Lemma across_opposite v a : across a (opposite v) = opposite (across a v).
Proof. unfold across, opposite, vx, vy, vz. cbn [fst snd]. apply f_equal2; [apply f_equal2|reflexivity]; ring. Qed.
Lemma back_velocity m t : get_velocity o' (kep_warp o') m (2 * T - t) = opposite (across W (get_velocity o (kep_warp o) m t)).
Proof.
  rewrite <- across_opposite. unfold get_velocity. assert (H := rb_ta _ _ _ B true t). assert (E := rb_ecc _ _ _ B). rewrite (rb_K _ _ _ B).
  destruct (tao true t) as [s c]. destruct (tao' true (2 * T - t)) as [s' c']. cbn [fst snd] in H. set (K := (o_K0 o * m)%num).
  assert (R0 : forall u v u' v', (u', v') = refl o (- u, - v) -> rotate_vector o' u' v' = across W (opposite (rotate_vector o u v))).
  { intros u v u' v' H0. rewrite <- opposite_rotate. exact (back_rotate (- u, - v) (u', v') H0). }
  unfold refl in *. destruct (o_ecc o) as [d|] eqn:ED, (o_ecc o') as [d'|] eqn:ED'; try contradiction; cbn [fst snd] in *; injection H as H1 H2; apply R0.
  - destruct E as (E1 & _). rewrite H1, H2, E1. apply f_equal2; cbn; ring.
  - rewrite H1, H2. apply f_equal2; cbn; ring.
Qed.
Lemma back_acceleration a m t : get_acceleration o' (kep_warp o') a m (2 * T - t) = across W (get_acceleration o (kep_warp o) a m t).
Proof.
  unfold get_acceleration. assert (H := rb_ta _ _ _ B true t). assert (E := rb_ecc _ _ _ B). rewrite (rb_K _ _ _ B).
  destruct (tao true t) as [s c]. destruct (tao' true (2 * T - t)) as [s' c']. cbn [fst snd] in H. set (K := (o_K0 o * m)%num).
  assert (Q : match o_ecc o' with None => ((- (K ^ 2)) / a)%num | Some d => (K ^ 2 * (e_ecc d * c' + #1) ^ 2 / (a * (e_ecc d ^ 2 - #1)))%num end = match o_ecc o with None => ((- (K ^ 2)) / a)%num | Some d => (K ^ 2 * (e_ecc d * c + #1) ^ 2 / (a * (e_ecc d ^ 2 - #1)))%num end).
  { unfold refl in H. destruct (o_ecc o), (o_ecc o'); try contradiction; [|reflexivity]. injection H as H1 H2. destruct E as (E1 & _). cbn [fst] in H1. rewrite E1, H1. reflexivity. }
  rewrite Q. set (r := match o_ecc o with None => _ | Some _ => _ end). apply (back_rotate (r * c, r * s) (r * c', r * s')). rewrite refl_scale, <- H. reflexivity.
Qed.
Lemma back_rv t K u : get_radial_velocity k o' (kep_warp o') (2 * T - t) K u = rmap Ropp (get_radial_velocity k o (kep_warp o) t K u).
Proof.
  unfold get_radial_velocity. destruct K as [K|].
  - assert (H := rb_ta _ _ _ B true t). assert (E := rb_ecc _ _ _ B). destruct (tao true t) as [s c]. destruct (tao' true (2 * T - t)) as [s' c']. cbn [fst snd] in H. unfold refl in H.
    cbn [rmap]. f_equal. destruct (o_ecc o) as [d|], (o_ecc o') as [d'|]; try contradiction; cbn [fst snd] in *; injection H as H1 H2.
    + destruct E as (E1 & E2 & E3). rewrite H1, H2, E1, E2, E3. cbn. ring.
    + rewrite H1. cbn. ring.
  - destruct (uto (u_Rsun_per_day k) _) as [conv|]; cbn [rbind rmap]; [|reflexivity]. unfold get_star_velocity. rewrite !sqz_R, (rb_mp _ _ _ B), back_velocity. 
    destruct (get_velocity o (kep_warp o) (o_m_planet o) t) as [[x y] z]. cbn [across opposite vx vy vz fst snd rmap]. f_equal. cbn. unfold vz. cbn [fst snd]. ring.
Qed.
Lemma back_pos b t par : pos k o' b (2 * T - t) par false = across W (pos k o b t par false).
Proof.
  unfold pos, get_planet_position, get_star_position, get_relative_position. rewrite (rb_a _ _ _ B), (rb_as _ _ _ B), (rb_ap _ _ _ B).
  destruct b; rewrite !sqz_R; apply back_get_position.
Qed.
Lemma back_vel b t : vel o' b (2 * T - t) = opposite (across W (vel o b t)).
Proof.
  unfold vel, get_planet_velocity, get_star_velocity, get_relative_velocity. rewrite (rb_ms _ _ _ B), (rb_mp _ _ _ B), (rb_mt _ _ _ B).
  destruct b; rewrite !sqz_R; apply back_velocity.
Qed.
Lemma back_acc b t : acc o' b (2 * T - t) = across W (acc o b t).
Proof.
  unfold acc, get_planet_acceleration, get_star_acceleration, get_relative_acceleration. rewrite (rb_a _ _ _ B), (rb_as _ _ _ B), (rb_ap _ _ _ B), (rb_ms _ _ _ B), (rb_mp _ _ _ B), (rb_mt _ _ _ B).
  destruct b; rewrite !sqz_R; apply back_acceleration.
Qed.
End M.
