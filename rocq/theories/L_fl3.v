(** * Evaluation of positions, velocities and accelerations on machine numbers *)
From Coq Require Import Reals List Bool Lra Psatz.
From Verif Require Import Num CoreOps Inst M_units M_kepler M_fin Spec_orbit Spec_params L_real L_kepop L_orbit L_motion L_params3 L_fl.
Open Scope R_scope.

Section S.
Variable k : consts.
Hypothesis kok : consts_ok k.
Variable o : orbit R.
Hypothesis ph : physical o.
Variable w : bool -> R -> R.
Variable wf : bool -> fl -> fl.
Hypothesis Hw : forall pad t, wf pad (Fin t) = Fin (w pad t).
Local Notation fo := (fin_orbit o).

Ltac pr := cbn [fin_orbit map_orbit map_vec fin3 o_a o_period o_rho_star o_r_star o_m_star o_m_planet o_m_total o_n o_a_star
    o_a_planet o_K0 o_Omega o_ecc o_M0 o_dcosidb o_b o_cos_incl o_incl o_sin_incl o_t0 o_tper o_tref o_jac o_duration
    option_map map_eccd map_omgd e_ecc e_cosw e_sinw e_omega O_cos O_sin O_Omega fst snd].

Lemma ta_fin pad t : true_anomaly fo wf pad (Fin t) =
  (Fin (fst (true_anomaly o w pad t)), Fin (snd (true_anomaly o w pad t))).
Proof.
  unfold true_anomaly. pr. rewrite Hw. destruct (o_ecc o) as [d|] eqn:E; pr; fn; [|reflexivity].
  assert (He := ph_ecc _ ph d E). rewrite Rplus_0_r. rewrite !fkep_fin by lra. reflexivity.
Qed.
Lemma rot_fin x y : rotate_vector fo (Fin x) (Fin y) = fin3 (rotate_vector o x y).
Proof. unfold rotate_vector. pr. destruct (o_ecc o), (o_Omega o); reflexivity. Qed.

(** 1 + e cos f > 0 *)
Lemma conic_pos pad t d : o_ecc o = Some d -> 0 < 1 + e_ecc d * snd (true_anomaly o w pad t).
Proof.
  intro E. assert (He := ph_ecc _ ph d E). unfold true_anomaly. rewrite E. fn.
  set (M := _ * o_n o). rewrite Rplus_0_r.
  assert (Ha : Rabs (e_ecc d) < 1) by (rewrite Rabs_pos_eq; lra).
  assert (C := kepler_unit M (e_ecc d) Ha).
  assert (-1 <= kepler_cosf M (e_ecc d) <= 1) by nra.
  generalize (eprod_bound _ _ Ha H). lra.
Qed.
Lemma ecc_sq d : o_ecc o = Some d -> 0 < 1 - e_ecc d * e_ecc d.
Proof. intro E. assert (He := ph_ecc _ ph d E). nra. Qed.

Lemma pos_nd_fin a t par pad :
  position_nodelay k fo wf (Fin a) (Fin t) (option_map Fin par) pad = fin3 (position_nodelay k o w a t par pad).
Proof.
  unfold position_nodelay. rewrite ta_fin. assert (C := conic_pos pad t).
  destruct (true_anomaly o w pad t) as [s c]. cbn [fst snd] in *. pr.
  destruct (o_ecc o) as [d|] eqn:E; pr.
  - specialize (C d eq_refl). fn. rewrite fdiv_fin by (unfold Rminus; lra).
    destruct par as [p|]; cbn [option_map]; fn; rewrite rot_fin; reflexivity.
  - destruct par as [p|]; cbn [option_map]; fn; rewrite rot_fin; reflexivity.
Qed.
Lemma vel_fin m t : get_velocity fo wf (Fin m) (Fin t) = fin3 (get_velocity o w m t).
Proof.
  unfold get_velocity. rewrite ta_fin. destruct (true_anomaly o w true t) as [s c]. cbn [fst snd]. pr.
  destruct (o_ecc o) as [d|] eqn:E; pr; fn; rewrite rot_fin; reflexivity.
Qed.
Lemma acc_fin a m t : a <> 0 -> get_acceleration fo wf (Fin a) (Fin m) (Fin t) = fin3 (get_acceleration o w a m t).
Proof.
  intro Ha. unfold get_acceleration. rewrite ta_fin. destruct (true_anomaly o w true t) as [s c]. cbn [fst snd]. pr.
  destruct (o_ecc o) as [d|] eqn:E; pr; fn.
  - assert (C := ecc_sq d E). rewrite fdiv_fin; [fn; rewrite rot_fin; reflexivity|].
    apply Rmult_integral_contrapositive_currified; [assumption|]. lra.
  - rewrite fdiv_fin by assumption. fn. rewrite rot_fin. reflexivity.
Qed.
Lemma sqz3_fl (v : fl * fl * fl) : sqz3 v = v.
Proof. destruct v as [[? ?] ?]. reflexivity. Qed.

(** ** The two places where a massless body gives NaN *)
Definition nan3 : fl * fl * fl := (NaN, NaN, NaN).

Lemma rot_nan : rotate_vector fo NaN NaN = nan3.
Proof. unfold rotate_vector. pr. destruct (o_ecc o), (o_Omega o); reflexivity. Qed.

Lemma acc_nan t : get_acceleration fo wf (Fin 0) (Fin 0) (Fin t) = nan3.
Proof.
  unfold get_acceleration. rewrite ta_fin. destruct (true_anomaly o w true t) as [s c]. cbn [fst snd]. pr.
  destruct (o_ecc o) as [d|] eqn:E; pr; fn.
  - rewrite !Rmult_0_r, Rmult_0_l. cbn [fdiv]. rewrite !Reqb_true by (rewrite ?Rmult_0_l; reflexivity). fn. apply rot_nan.
  - rewrite !Rmult_0_r. cbn [fdiv]. rewrite (Reqb_true 0 0) by reflexivity. rewrite Reqb_true by ring. fn. apply rot_nan.
Qed.

Lemma delay_fin z0 v z az :
  c_light k + v <> 0 ->
  0 <= (1 + v / c_light k) * (1 + v / c_light k) - 2 * az * (z0 - z) / (c_light k * c_light k) ->
  light_delay_of k (Fin z0) (Fin v) (Fin z) (Fin az) = Fin (light_delay_of k z0 v z az).
Proof.
  intros H1 H2. unfold light_delay_of. fn. assert (Hc := ok_c _ kok). assert (0 < c_light k * c_light k) by nra.
  cbn [flt]. destruct (Rltb (Rabs az) (1 / 10000000000)) eqn:E.
  - rewrite fdiv_fin by assumption. reflexivity.
  - rewrite !(fdiv_fin v) by lra. fn. rewrite (fdiv_fin (2 * az * (z0 + - z))) by lra.
    assert (Haz : az <> 0).
    { intro Z. rewrite Z, Rabs_R0, Rltb_true in E by lra. discriminate. }
    rewrite (fdiv_fin (c_light k) az) by assumption. fn.
    rewrite fsqrt_fin by (unfold Rminus in H2; lra). reflexivity.
Qed.
Lemma retarded_fin a t par pad : a <> 0 ->
  (let '(v, z, az) := retarded_state o w a t pad in
   c_light k + v <> 0 /\
   0 <= (1 + v / c_light k) * (1 + v / c_light k) - 2 * az * (0 - z) / (c_light k * c_light k)) ->
  get_position k fo wf (Fin a) (Fin t) (option_map Fin par) true pad = fin3 (get_position k o w a t par true pad).
Proof.
  intros Ha Hc. unfold get_position, retarded_position.
  assert (E : retarded_state fo wf (Fin a) (Fin t) pad = fin3 (retarded_state o w a t pad)).
  { unfold retarded_state. rewrite ta_fin. assert (C := conic_pos pad t).
    destruct (true_anomaly o w pad t) as [s c]. cbn [fst snd] in *. pr.
    assert (Hp := ph_period _ ph). fn. rewrite !(fdiv_fin (2 * PI)) by lra. fn.
    destruct (o_ecc o) as [d|] eqn:Ed; pr.
    - specialize (C d eq_refl). assert (E2 := ecc_sq d Ed). fn. rewrite !(fdiv_fin (a * _)) by lra. fn.
      rewrite fsqrt_fin by (unfold Rminus in E2; lra).
      assert (0 < sqrt (1 - e_ecc d * e_ecc d)) by (apply sqrt_lt_R0; exact E2).
      rewrite (fdiv_fin (2 * PI / o_period o * a)) by (unfold Rminus in H; lra). fn. rewrite rot_fin.
      destruct (rotate_vector o _ _) as [[? ?] z] eqn:Er. cbn [fin3 map_vec].
      rewrite fdiv_fin.
      2:{ unfold Rdiv. apply Rmult_integral_contrapositive_currified; [apply Rmult_integral_contrapositive_currified; [assumption|]|].
          - unfold Rminus in E2. lra. - apply Rinv_neq_0_compat. lra. }
      change (1 + - (e_ecc d * e_ecc d)) with (1 - e_ecc d * e_ecc d). fn.
      change (1 + - (e_ecc d * e_ecc d)) with (1 - e_ecc d * e_ecc d) in Er. try rewrite Er. reflexivity.
    - fn. rewrite rot_fin. destruct (rotate_vector o _ _) as [[? ?] z]. cbn [fin3 map_vec].
      rewrite fdiv_fin by assumption. reflexivity. }
  rewrite E. destruct (retarded_state o w a t pad) as [[v z] az]. cbn [fin3 map_vec]. destruct Hc as [H1 H2].
  change (@nlit fl bool NumF 0) with (Fin 0). rewrite delay_fin by assumption.
  destruct pad; fn; change (@None fl) with (option_map Fin None); rewrite pos_nd_fin; reflexivity.
Qed.

Hypothesis Hwn : forall pad, wf pad NaN = NaN.
Lemma delayed_nan t par : get_position k fo wf (Fin 0) (Fin t) par true true = nan3.
Proof.
  unfold get_position, retarded_position, retarded_state. rewrite ta_fin. assert (C := conic_pos true t).
  destruct (true_anomaly o w true t) as [s c]. cbn [fst snd] in *. pr.
  assert (E : forall (r : R) (v : fl), r = 0 -> (let '(_, _, z) := rotate_vector fo (nmul (Fin r) (Fin c)) (nmul (Fin r) (Fin s)) in
     (v, z, (- ((#2 * nlit PI / Fin (o_period o)) ^ 2) * (Fin 0 / Fin r) ^ 3 * z))%num)
     = (v, Fin (vz (rotate_vector o (r * c) (r * s))), NaN)).
  { intros r v ->. fn. rewrite rot_fin. destruct (rotate_vector o (0 * c) (0 * s)) as [[? ?] z]. unfold vz. cbn [fin3 map_vec snd].
    cbn [fdiv]. rewrite (Reqb_true 0 0) by reflexivity. rewrite (Reqb_false (o_period o)) by (generalize (ph_period _ ph); lra).
    reflexivity. }
  assert (K : forall v z : fl, position_nodelay k fo wf (Fin 0) (npadr (Fin t) - light_delay_of k (#0) v z NaN)%num None false = nan3).
  { intros v z. replace (light_delay_of k (#0)%num v z NaN) with NaN by reflexivity. fn.
    unfold position_nodelay, true_anomaly. fn. rewrite Hwn. pr. cbn [fadd].
    destruct (o_ecc o) as [d|]; pr; fn.
    - cbn [fkep fmul fadd]. cbn [fdiv fmul]. apply rot_nan.
    - apply rot_nan. }
  destruct (o_ecc o) as [d|] eqn:Ed; pr.
  - specialize (C d eq_refl). assert (Er : (Fin 0 * (#1 - Fin (e_ecc d) ^ 2) / (#1 + Fin (e_ecc d) * Fin c))%num = Fin 0).
    { fn. rewrite fdiv_fin by lra. f_equal. unfold Rdiv. ring. }
    rewrite Er. rewrite (E 0 _ eq_refl). apply K.
  - rewrite (E 0 _ eq_refl). apply K.
Qed.

End S.

Lemma kep_warp_fin (o : orbit R) pad t : kep_warp (fin_orbit o) pad (Fin t) = Fin (kep_warp o pad t).
Proof. unfold kep_warp. destruct pad; reflexivity. Qed.
Lemma kep_warp_nan (o : orbit R) pad : kep_warp (fin_orbit o) pad NaN = NaN.
Proof. unfold kep_warp. destruct pad; reflexivity. Qed.
