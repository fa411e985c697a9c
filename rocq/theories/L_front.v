(** * Proofs: once per orbit in front of the star, once behind it *)
From Coq Require Import Reals List Bool Arith ZArith Lra Lia Psatz.
From Verif Require Import Num CoreOps Inst CoreFlux M_units M_kepler M_fin M_tensor M_simple M_ttv M_limbdark M_secondary
  Spec_orbit Spec_params Spec_array Spec_light Spec_sym Spec_back Spec_depth Spec_front L_real L_orbit L_kepop L_motion L_params L_params2 L_params3 L_params4 L_pmotion L_pmotion3 L_pmotion5 L_light4 L_light7 L_depth3 L_node L_mirror L_eclipse.
Open Scope R_scope.

(** ** angles *)
Lemma unit_angle c s : c * c + s * s = 1 -> exists p, cos p = c /\ sin p = s.
Proof.
  intro H. assert (B : -1 <= c <= 1) by nra. destruct (Rle_dec 0 s) as [h|h].
  - exists (acos c). split; [apply cos_acos; exact B|]. rewrite sin_acos by exact B. rewrite <- (sqrt_square s) by exact h. f_equal. unfold Rsqr. lra.
  - exists (- acos c). split; [rewrite cos_neg; apply cos_acos; exact B|]. rewrite sin_neg, sin_acos by exact B. rewrite <- (Ropp_involutive s). f_equal. rewrite <- (sqrt_square (- s)) by lra. f_equal. unfold Rsqr. lra.
Qed.
Lemma kepler_mono e a b : 0 <= e < 1 -> a < b -> a - e * sin a < b - e * sin b.
Proof.
  intros He H. assert (L := sin_lipschitz b a). rewrite (Rabs_pos_eq (b - a)) in L by lra. assert (sin b - sin a <= b - a) by (eapply Rle_trans; [apply Rle_abs|exact L]).
  destruct (Rle_dec 0 (sin b - sin a)); nra.
Qed.
Lemma kepler_mono_inv e a b : 0 <= e < 1 -> a - e * sin a < b - e * sin b -> a < b.
Proof.
  intros He H. destruct (Rtotal_order a b) as [h|[->|h]]; [exact h|lra|]. assert (K := kepler_mono e b a He h). lra.
Qed.
Lemma cos_inside A y : 0 < A < PI -> - A < y < A -> cos A < cos y.
Proof.
  intros HA Hy. destruct (Rle_dec 0 y) as [h|h].
  - apply cos_decreasing_1; lra.
  - rewrite <- (cos_neg y). apply cos_decreasing_1; lra.
Qed.
Lemma cos_outside A y : 0 < A < PI -> A < y < 2 * PI - A -> cos y < cos A.
Proof.
  intros HA Hy. destruct (Rle_dec y PI) as [h|h].
  - apply cos_decreasing_1; lra.
  - replace (cos y) with (cos (2 * PI - y)). 2:{ rewrite cos_minus, cos_2PI, sin_2PI. ring. } apply cos_decreasing_1; lra.
Qed.

(** ** the sign of the line of sight *)
Lemma slant_bound o : physical o -> -1 < slant o < 1.
Proof.
  intro Hp. assert (He := eo_bound o Hp). assert (Hw := w_unit o Hp). unfold slant. change (ecc_of o) with (eo o). set (e := eo o) in *. set (s := sinw_of o) in *. set (c := cosw_of o) in *.
  assert (P : 0 < 1 - e * e * (c * c)) by nra. assert (Q := sqrt_sqrt _ (Rlt_le _ _ P)). assert (Qp := sqrt_lt_R0 _ P). set (r := sqrt (1 - e * e * (c * c))) in *.
  assert (K : (e * s) * (e * s) < r * r) by (rewrite Q; nra).
  assert (B : - r < e * s < r) by (split; nra). split.
  - apply (Rmult_lt_reg_r r); [exact Qp|]. unfold Rdiv. rewrite Rmult_assoc, Rinv_l by lra. lra.
  - apply (Rmult_lt_reg_r r); [exact Qp|]. unfold Rdiv. rewrite Rmult_assoc, Rinv_l by lra. lra.
Qed.
Lemma vz_form k (x : kargs R) o : consts_ok k -> kep_init k x = Ok o -> physical o ->
  exists p R0, 0 < R0 /\ ecc_of o * cos p = slant o /\
  forall t, vz (pos k o Relative t None false) = o_a o * o_sin_incl o * R0 * (cos (Eof o t - p) - slant o).
Proof.
  intros kok Hi Hp. assert (He := eo_bound o Hp). assert (Hw := w_unit o Hp).
  assert (P : 0 < 1 - eo o * eo o * (cosw_of o * cosw_of o)) by nra. assert (Q := sqrt_sqrt _ (Rlt_le _ _ P)). assert (Qp := sqrt_lt_R0 _ P).
  set (r := sqrt (1 - eo o * eo o * (cosw_of o * cosw_of o))) in *.
  destruct (unit_angle (sinw_of o / r) (cosw_of o * qo o / r)) as (p & C & S).
  { replace (sinw_of o / r * (sinw_of o / r) + cosw_of o * qo o / r * (cosw_of o * qo o / r)) with ((sinw_of o * sinw_of o + cosw_of o * cosw_of o * (qo o * qo o)) / (r * r)) by (field; lra).
    rewrite (qo_sqr o Hp), Q. replace (sinw_of o * sinw_of o + cosw_of o * cosw_of o * (1 - eo o * eo o)) with (1 - eo o * eo o * (cosw_of o * cosw_of o)) by lra. field. lra. }
  exists p, r. split; [exact Qp|]. split.
  { rewrite C. unfold slant. change (ecc_of o) with (eo o). fold r. unfold Rdiv. ring. }
  intro t. cbn [pos]. rewrite (rel_pos k kok x o Hi Hp). unfold plxf, lin, Pv, Qv, px, py. vcrush.
  rewrite cos_minus, C, S. unfold slant. change (ecc_of o) with (eo o). fold r. field. lra.
Qed.
Lemma front_once : forall k (x : kargs R) o, consts_ok k -> kep_init k x = Ok o -> physical o -> 0 < o_sin_incl o ->
  exists ta tb, ta < tb < ta + o_period o /\ tb - ta = o_period o * front_share o /\ (sinw_of o <> -1 -> ta < o_t0 o < tb) /\
  forall t (z : Z), (ta + IZR z * o_period o < t < tb + IZR z * o_period o -> 0 < vz (pos k o Relative t None false)) /\
    (tb + IZR z * o_period o < t < ta + IZR (z + 1) * o_period o -> vz (pos k o Relative t None false) < 0) /\
    (t = ta + IZR z * o_period o \/ t = tb + IZR z * o_period o -> vz (pos k o Relative t None false) = 0).
Proof.
  intros k x o kok Hi Hp Si. destruct (vz_form k x o kok Hi Hp) as (p & r & Hr & Hc & V).
  assert (He : 0 <= ecc_of o < 1) by exact (eo_bound o Hp). assert (HB := slant_bound o Hp). assert (HP := ph_period _ Hp). assert (Ha := ph_a _ Hp). assert (Hpi := PI_RGT_0).
  assert (F := kep_init_facts k kok x o Hi Hp). assert (Hn := n_pos k kok x o Hi Hp). assert (En := of_n _ _ _ F).
  assert (CA := cos_acos (slant o) ltac:(lra)). assert (SA : sin (acos (slant o)) = sqrt (1 - slant o * slant o)) by (rewrite sin_acos by lra; reflexivity).
  assert (BA : 0 < acos (slant o) < PI).
  { destruct (acos_bound (slant o)) as [A1 A2]. split.
    - destruct A1 as [A1|A1]; [exact A1|]. rewrite <- A1, cos_0 in CA. lra.
    - destruct A2 as [A2|A2]; [exact A2|]. rewrite A2, cos_PI in CA. lra. }
  set (A := acos (slant o)) in *. set (e := ecc_of o) in *.
  assert (G : 0 < o_a o * o_sin_incl o * r) by (repeat apply Rmult_lt_0_compat; assumption).
  assert (PN : o_n o * o_period o = 2 * PI) by (rewrite En; field; lra).
  set (tm := fun E => o_tper o + (E - e * sin E) / o_n o).
  assert (EM : forall t, Eof o t - e * sin (Eof o t) = o_n o * (t - o_tper o)).
  { intro t. unfold Eof, Mof, e. change (ecc_of o) with (eo o). rewrite ecc_anom_spec by (apply eo_abs, Hp). ring. }
  assert (TM : forall E z, tm (E + IZR z * (2 * PI)) = tm E + IZR z * o_period o).
  { intros E z. unfold tm. rewrite sin_sub_2PIk. rewrite <- PN. field. lra. }
  assert (ET : forall t, t = tm (Eof o t)). { intro t. unfold tm. rewrite EM. field. lra. }
  assert (LT : forall a b, a < b <-> tm a < tm b).
  { intros a b. unfold tm. assert (I := Rinv_0_lt_compat _ Hn). split; intro H.
    - apply Rplus_lt_compat_l. unfold Rdiv. apply Rmult_lt_compat_r; [exact I|]. apply kepler_mono; assumption.
    - apply (kepler_mono_inv e); [exact He|]. apply (Rmult_lt_reg_r (/ o_n o)); [exact I|]. unfold Rdiv in H. lra. }
  assert (Back : forall z : Z, IZR (z + 1) = IZR z + 1) by (intro z; rewrite plus_IZR; reflexivity).
  assert (Sg : forall t (z : Z), (tm (p - A) + IZR z * o_period o < t < tm (p + A) + IZR z * o_period o -> 0 < vz (pos k o Relative t None false)) /\
    (tm (p + A) + IZR z * o_period o < t < tm (p - A) + IZR (z + 1) * o_period o -> vz (pos k o Relative t None false) < 0) /\
    (t = tm (p - A) + IZR z * o_period o \/ t = tm (p + A) + IZR z * o_period o -> vz (pos k o Relative t None false) = 0)).
  { intros t z. rewrite V. rewrite <- !TM, !Back. rewrite (ET t) at 1 2 4 5 7 8.
    replace (cos (Eof o t - p)) with (cos (Eof o t - p - IZR z * (2 * PI))).
    2:{ rewrite <- (cos_sub_2PIk (Eof o t - p - IZR z * (2 * PI)) z). f_equal. ring. }
    rewrite <- CA. split; [|split].
    - intros [H1 H2]. apply LT in H1. apply LT in H2. apply Rmult_lt_0_compat; [exact G|]. assert (K := cos_inside A (Eof o t - p - IZR z * (2 * PI)) BA ltac:(lra)). lra.
    - intros [H1 H2]. apply LT in H1. apply LT in H2. assert (K := cos_outside A (Eof o t - p - IZR z * (2 * PI)) BA ltac:(lra)).
      apply Ropp_lt_cancel. rewrite Ropp_0, Ropp_mult_distr_r. apply Rmult_lt_0_compat; [exact G|lra].
    - assert (Inj : forall a b, tm a = tm b -> a = b). { intros a b H. destruct (Rtotal_order a b) as [h|[h|h]]; [apply LT in h; lra|exact h|apply LT in h; lra]. }
      intros [H|H]; apply Inj in H; rewrite H.
      + replace (p - A + IZR z * (2 * PI) - p - IZR z * (2 * PI)) with (- A) by ring. rewrite cos_neg. ring.
      + replace (p + A + IZR z * (2 * PI) - p - IZR z * (2 * PI)) with A by ring. ring. }
  assert (L1 : tm (p - A) < tm (p + A)) by (apply (proj1 (LT _ _)); lra).
  assert (L2 : tm (p + A) < tm (p - A) + o_period o). { replace (o_period o) with (IZR 1 * o_period o) by ring. rewrite <- TM. apply (proj1 (LT _ _)). lra. }
  assert (Du : tm (p + A) - tm (p - A) = o_period o * front_share o).
  { unfold tm, front_share. fold A. rewrite <- SA. rewrite sin_plus, sin_minus. rewrite <- Hc. rewrite En. field. lra. }
  destruct (Req_dec (sinw_of o) (-1)) as [Hs|Hs].
  { exists (tm (p - A)), (tm (p + A)). split; [split; assumption|]. split; [exact Du|]. split; [contradiction|]. exact Sg. }
  destruct (mid_transit k x o kok Hi Hp Hs) as (_ & Vz & Rp). assert (Zp : 0 < vz (pos k o Relative (o_t0 o) None false)).
  { change (pos k o Relative (o_t0 o) None false) with (get_relative_position k o (kep_warp o) (o_t0 o) None false). rewrite Vz. apply Rmult_lt_0_compat; assumption. }
  assert (Wz : exists z : Z, tm (p - A) + IZR z * o_period o <= o_t0 o < tm (p - A) + IZR (z + 1) * o_period o).
  { set (w := (o_t0 o - tm (p - A)) / o_period o). assert (W : o_t0 o = tm (p - A) + w * o_period o) by (unfold w; field; lra).
    destruct (archimed w) as [U1 U2]. exists (up w - 1)%Z. rewrite Back, minus_IZR, W. clearbody w. split; nra. }
  destruct Wz as (z & W1 & W2). exists (tm (p - A) + IZR z * o_period o), (tm (p + A) + IZR z * o_period o).
  destruct (Sg (o_t0 o) z) as (S1 & S2 & S3). split; [split; lra|]. split; [lra|]. split.
  { intros _. split.
    - destruct W1 as [W1|W1]; [exact W1|]. rewrite S3 in Zp by (left; symmetry; exact W1). lra.
    - destruct (Rtotal_order (o_t0 o) (tm (p + A) + IZR z * o_period o)) as [h|[h|h]]; [exact h| |].
      + rewrite S3 in Zp by (right; exact h). lra.
      + specialize (S2 (conj h W2)). lra. }
  intros t y. destruct (Sg t (z + y)%Z) as (T1 & T2 & T3). rewrite Back in *. rewrite plus_IZR in *. split; [|split].
  - intro H. apply T1. lra.
  - intro H. apply T2. lra.
  - intro H. apply T3. destruct H as [H|H]; [left|right]; lra.
Qed.
Lemma front_half : forall o, physical o ->
  (ecc_of o * sinw_of o = 0 -> front_share o = 1 / 2) /\ (0 < ecc_of o * sinw_of o -> front_share o < 1 / 2) /\ (ecc_of o * sinw_of o < 0 -> 1 / 2 < front_share o) /\ 0 < front_share o < 1.
Proof.
  intros o Hp. assert (HB := slant_bound o Hp). assert (Hpi := PI_RGT_0). assert (He := eo_bound o Hp). assert (Hw := w_unit o Hp). change (eo o) with (ecc_of o) in He.
  assert (P : 0 < 1 - ecc_of o * ecc_of o * (cosw_of o * cosw_of o)) by nra. assert (Qp := sqrt_lt_R0 _ P).
  assert (Sp := sqrt_lt_R0 (1 - slant o * slant o) ltac:(nra)).
  assert (Mono : forall a b, -1 <= a <= 1 -> -1 <= b <= 1 -> a < b -> acos b < acos a).
  { intros a b Ha Hb H. apply Rnot_le_lt. intro H1. assert (A1 := acos_bound a). assert (B1 := acos_bound b). assert (K := cos_decr_1 (acos a) (acos b) ltac:(lra) ltac:(lra) ltac:(lra) ltac:(lra) H1). rewrite !cos_acos in K by assumption. lra. }
  assert (Half : forall v, v < PI / 2 -> v / PI < 1 / 2). { intros v H. apply (Rmult_lt_reg_r PI); [exact Hpi|]. unfold Rdiv. rewrite Rmult_assoc, Rinv_l by lra. lra. }
  assert (Half' : forall v, PI / 2 < v -> 1 / 2 < v / PI). { intros v H. apply (Rmult_lt_reg_r PI); [exact Hpi|]. unfold Rdiv. rewrite (Rmult_assoc v), Rinv_l by lra. lra. }
  assert (A0 := acos_0). unfold front_share. split; [|split; [|split]].
  - intro H. assert (S0 : slant o = 0) by (unfold slant; rewrite H; unfold Rdiv; ring). rewrite S0, A0. field. lra.
  - intro H. assert (S0 : 0 < slant o) by (apply Rdiv_lt_0_compat; assumption). apply Half. assert (K := Mono 0 (slant o) ltac:(lra) ltac:(lra) S0). rewrite A0 in K. nra.
  - intro H. assert (S0 : slant o < 0). { unfold slant, Rdiv. apply Ropp_lt_cancel. rewrite Ropp_0, Ropp_mult_distr_l. apply Rmult_lt_0_compat; [lra|apply Rinv_0_lt_compat; exact Qp]. } apply Half'. assert (K := Mono (slant o) 0 ltac:(lra) ltac:(lra) S0). rewrite A0 in K. nra.
  - set (d := slant o) in *. set (A := acos d). assert (CA : cos A = d) by (apply cos_acos; lra). assert (SA : sin A = sqrt (1 - d * d)) by (unfold A; rewrite sin_acos by lra; reflexivity).
    assert (BA := acos_bound d). fold A in BA. rewrite <- SA in *. rewrite <- CA in *.
    assert (A1 : 0 < A) by (destruct BA as [[h|h] _]; [exact h|rewrite <- h, cos_0 in HB; lra]). assert (A2 : A < PI) by (destruct BA as [_ [h|h]]; [exact h|rewrite h, cos_PI in HB; lra]).
    assert (L1 : 0 < A - cos A * sin A). { assert (K := sin_lt_x (2 * A) ltac:(lra)). rewrite sin_2a in K. lra. }
    assert (L2 : A - cos A * sin A < PI). { assert (K := sin_lt_x (2 * (PI - A)) ltac:(lra)). rewrite sin_2a, sin_minus, cos_minus, cos_PI, sin_PI in K. lra. }
    split; [apply Rdiv_lt_0_compat; assumption|]. apply (Rmult_lt_reg_r PI); [exact Hpi|]. unfold Rdiv. rewrite Rmult_assoc, Rinv_l by lra. lra.
Qed.
(** ** the conjunction *)
Lemma along_form k (x : kargs R) o t : consts_ok k -> kep_init k x = Ok o -> physical o ->
  along (node_angle x) (pos k o Relative t None false) = - o_a o * (px o t * cosw_of o - py o t * sinw_of o).
Proof.
  intros kok Hi Hp. assert (U := O_unit k kok x o Hi Hp). assert (F := kep_init_facts k kok x o Hi Hp).
  assert (NC : cos (node_angle x) = cosO o /\ sin (node_angle x) = sinO o).
  { unfold node_angle, cosO, sinO. rewrite (node_known k x o Hi). destruct (ka_Omega x); cbn; [split; reflexivity|split; [apply cos_0|apply sin_0]]. }
  destruct NC as [N1 N2]. unfold along. rewrite N1, N2. cbn [pos]. rewrite (rel_pos k kok x o Hi Hp). unfold plxf, lin, Pv, Qv. vcrush.
  replace (- o_a o * (px o t * cosw_of o - py o t * sinw_of o)) with (- o_a o * (px o t * cosw_of o - py o t * sinw_of o) * (cosO o * cosO o + sinO o * sinO o)) by (rewrite U; ring). ring.
Qed.
Lemma vz_plain k (x : kargs R) o t : consts_ok k -> kep_init k x = Ok o -> physical o ->
  vz (pos k o Relative t None false) = o_a o * o_sin_incl o * (px o t * sinw_of o + py o t * cosw_of o).
Proof. intros kok Hi Hp. cbn [pos]. rewrite (rel_pos k kok x o Hi Hp). unfold plxf, lin, Pv, Qv. vcrush. ring. Qed.
Lemma conjunction_once : forall k (x : kargs R) o t, consts_ok k -> kep_init k x = Ok o -> physical o -> 0 < o_sin_incl o -> sinw_of o <> -1 ->
  (along (node_angle x) (pos k o Relative t None false) = 0 /\ 0 < vz (pos k o Relative t None false)) <-> exists z : Z, t = o_t0 o + IZR z * o_period o.
Proof.
  intros k x o t kok Hi Hp Si Hs. assert (Ha := ph_a _ Hp). assert (He := eo_bound o Hp). assert (Hw := w_unit o Hp). assert (Q := qo_sqr o Hp). assert (Qp := qo_pos o Hp).
  assert (F := kep_init_facts k kok x o Hi Hp). assert (Hn := n_pos k kok x o Hi Hp). assert (HP := ph_period _ Hp). assert (Hpi := PI_RGT_0).
  assert (PN : o_n o * o_period o = 2 * PI) by (rewrite (of_n _ _ _ F); field; lra).
  destruct (t0_anomaly k x o kok Hi Hp Hs) as (E0 & A1 & A2 & A3). change (ecc_of o) with (eo o) in *. change (sqrt (1 - eo o * eo o)) with (qo o) in A3.
  assert (EM : Eof o t - eo o * sin (Eof o t) = o_n o * (t - o_tper o)). { unfold Eof, Mof. rewrite ecc_anom_spec by (apply eo_abs, Hp). ring. }
  rewrite (along_form k x o t kok Hi Hp), (vz_plain k x o t kok Hi Hp). unfold px, py. set (E := Eof o t) in *. set (e := eo o) in *. set (s := sinw_of o) in *. set (c := cosw_of o) in *. set (q := qo o) in *.
  assert (sb : -1 <= s <= 1) by nra. assert (p1 : 0 < 1 + e * s) by nra. assert (U := sin2_cos2 E). unfold Rsqr in U.
  split.
  - intros [H1 H2]. assert (K1 : (cos E - e) * c = q * sin E * s) by nra. set (u := (cos E - e) * s + q * sin E * c) in *. assert (Hu : 0 < u). { apply (Rmult_lt_reg_l (o_a o * o_sin_incl o)); [apply Rmult_lt_0_compat; assumption|]. rewrite Rmult_0_r. exact H2. }
    assert (X : cos E - e = u * s). { unfold u. replace (cos E - e) with ((cos E - e) * (c * c + s * s)) at 1 by (rewrite Hw; ring). replace ((cos E - e) * (c * c + s * s)) with ((cos E - e) * c * c + (cos E - e) * s * s) by ring. rewrite K1. ring. }
    assert (Y : q * sin E = u * c). { unfold u. replace (q * sin E) with (q * sin E * (c * c + s * s)) at 1 by (rewrite Hw; ring). replace (q * sin E * (c * c + s * s)) with (q * sin E * c * c + q * sin E * s * s) by ring. rewrite <- K1. ring. }
    assert (D : u * u = (1 - e * cos E) * (1 - e * cos E)).
    { replace (u * u) with (u * u * (c * c + s * s)) by (rewrite Hw; ring). replace (u * u * (c * c + s * s)) with ((u * s) * (u * s) + (u * c) * (u * c)) by ring. rewrite <- X, <- Y.
      replace (q * sin E * (q * sin E)) with (q * q * (sin E * sin E)) by ring. rewrite Q. replace (sin E * sin E) with (1 - cos E * cos E) by lra. ring. }
    assert (Dp : 0 < 1 - e * cos E) by (apply ecos_pos, eo_abs, Hp). assert (Du : u = 1 - e * cos E) by nra.
    assert (Uu : u = (1 - e * e) / (1 + e * s)). { apply (Rmult_eq_reg_r (1 + e * s)); [|lra]. unfold Rdiv. rewrite Rmult_assoc, Rinv_l, Rmult_1_r by lra. assert (cos E = u * s + e) by lra. nra. }
    assert (CE : cos E = cos E0). { rewrite A2. replace (cos E) with (u * s + e) by lra. rewrite Uu. field. lra. }
    assert (SE : sin E = sin E0). { rewrite A3. apply (Rmult_eq_reg_l q); [|lra]. rewrite Y, Uu, <- Q. field. lra. }
    destruct (sincos_inj E E0 SE CE) as (z & Ez). exists z. rewrite Ez, sin_sub_2PIk in EM. rewrite <- PN in EM.
    apply (Rmult_eq_reg_l (o_n o)); [|lra]. lra.
  - intros (z & ->). assert (Ez : E = E0 + IZR z * (2 * PI)).
    { apply (kepler_inj e); [apply eo_abs, Hp|]. rewrite EM, sin_sub_2PIk. rewrite <- PN. lra. }
    rewrite Ez, sin_sub_2PIk, cos_sub_2PIk, A2, A3. split; [|].
    + replace (((e + s) / (1 + e * s) - e) * c - q * (q * c / (1 + e * s)) * s) with (0 : R); [ring|]. replace (q * (q * c / (1 + e * s)) * s) with (q * q * c * s / (1 + e * s)) by (field; lra). rewrite Q. field. lra.
    + apply Rmult_lt_0_compat; [apply Rmult_lt_0_compat; assumption|]. replace (((e + s) / (1 + e * s) - e) * s + q * (q * c / (1 + e * s)) * c) with ((1 - e * e) / (1 + e * s)).
      * apply Rdiv_lt_0_compat; nra.
      * replace (q * (q * c / (1 + e * s)) * c) with (q * q * (c * c) / (1 + e * s)) by (field; lra). rewrite Q. replace (c * c) with (1 - s * s) by lra. field. lra.
Qed.
(** ** light curves *)
Lemma light_once : forall u1 u2 k n (x : kargs tens) xs os o cp r rs N t ts texp es osam order, disk_flux u1 u2 <> 0 -> consts_ok k -> system k n x xs os -> kep_init k x = Ok o ->
  (forall j, (j < n)%nat -> 0 < o_sin_incl (os j)) -> elements n r rs -> (forall j, (j < n)%nat -> 0 <= rs j) ->
  is_vector N t -> (forall m, (m < N)%nat -> aget t (at_time m) = Fin (ts m)) -> opt_exposures N texp es -> (forall m, (m < N)%nat -> 0 <= es m) ->
  (texp <> None -> exists nodes weights, stencil osam order = Ok (nodes, weights)) ->
  exists X f, get_light_curve (ld_init (Fin u1) (Fin u2)) (Some (kep_api k cp o)) (Some r) (Some t) texp osam order (Some false) false = Ok X /\ light_table n N X f /\
  forall j, (j < n)%nat -> exists ta tb, ta < tb < ta + o_period (os j) /\ tb - ta = o_period (os j) * front_share (os j) /\ (sinw_of (os j) <> -1 -> ta < o_t0 (os j) < tb) /\
    forall m (z : Z), (m < N)%nat -> tb + IZR z * o_period (os j) <= ts m - es m / 2 -> ts m + es m / 2 <= ta + IZR (z + 1) * o_period (os j) -> f m j = 0.
Proof.
  intros u1 u2 k n x xs os o cp r rs N t ts texp es osam order Hd kok sys Ho Si Hr Hr0 Ht Hts He He0 Hst.
  destruct (kepler_answers k n x xs os o cp kok sys Ho) as [HA Hs].
  destruct (curve_of u1 u2 _ false n _ _ r rs N t ts texp es osam order Hd HA Hs (fun j Hj => ph_r_star _ (sy_phys _ _ _ _ _ sys j Hj)) Hr Ht Hts He Hst) as (X & f & EX & TX & F).
  exists X, f. split; [exact EX|]. split; [exact TX|]. intros j Hj.
  destruct (front_once k (xs j) (os j) kok (sy_init _ _ _ _ _ sys j Hj) (sy_phys _ _ _ _ _ sys j Hj) (Si j Hj)) as (ta & tb & I & D & T0 & V). exists ta, tb. split; [exact I|]. split; [exact D|]. split; [exact T0|].
  intros m z Hm H1 H2. apply (mean_at_const N osam order texp es m (fun s => flux_at u1 u2 (pos k (os j) Relative s None false) (rs j) (o_r_star (os j))) (ts m) _ 0 He (He0 m Hm)).
  - intros s Hb. assert (B : - (es m / 2) <= s - ts m <= es m / 2) by (unfold Rabs in Hb; destruct (Rcase_abs (s - ts m)); lra). apply not_overlap; [exact Hd|apply Hr0; exact Hj|apply (ph_r_star _ (sy_phys _ _ _ _ _ sys j Hj))|]. intros [K _].
    destruct (V s z) as (_ & V2 & V3). destruct (V s (z + 1)%Z) as (_ & _ & V4).
    destruct (Rtotal_order s (tb + IZR z * o_period (os j))) as [h|[h|h]]; [lra|rewrite V3 in K by (right; exact h); lra|].
    destruct (Rtotal_order s (ta + IZR (z + 1) * o_period (os j))) as [h'|[h'|h']]; [specialize (V2 (conj h h')); lra|rewrite V4 in K by (left; exact h'); lra|lra].
  - unfold mean_at. destruct texp as [e|]; [|apply F]. destruct F as (nodes & weights & St & F). exists nodes, weights. split; [exact St|apply F].
Qed.
(** a circular orbit is in front within a quarter of a period of mid-transit *)
Lemma front_circular : forall k (x : kargs R) o t (z : Z), consts_ok k -> kep_init k x = Ok o -> physical o -> o_ecc o = None -> 0 < o_sin_incl o ->
  let d := Rabs (t - (o_t0 o + IZR z * o_period o)) in
  (d < o_period o / 4 -> 0 < vz (pos k o Relative t None false)) /\ (o_period o / 4 < d <= o_period o / 2 -> vz (pos k o Relative t None false) < 0).
Proof.
  intros k x o t z kok Hi Hp E Si d. assert (Ha := ph_a _ Hp). assert (F := kep_init_facts k kok x o Hi Hp). assert (HP := ph_period _ Hp). assert (Hpi := PI_RGT_0).
  assert (He : eo o = 0) by (unfold eo, ecc_of; rewrite E; reflexivity). assert (Hs : sinw_of o = 0) by (unfold sinw_of; rewrite E; reflexivity). assert (Hc : cosw_of o = 1) by (unfold cosw_of; rewrite E; reflexivity).
  assert (V : vz (pos k o Relative t None false) = o_a o * o_sin_incl o * cos (2 * PI * (d / o_period o))).
  { rewrite (vz_plain k x o t kok Hi Hp), Hs, Hc. unfold py, qo, Eof. rewrite He, ecc_anom_0. replace (1 - 0 * 0) with 1 by ring. rewrite sqrt_1.
    set (u := t - (o_t0 o + IZR z * o_period o)) in *.
    assert (M : Mof o t = 2 * PI * (u / o_period o) + PI / 2 + IZR z * (2 * PI)).
    { unfold Mof, u. rewrite (of_t0 _ _ _ F), (of_M0_circ _ _ _ F E), (of_n _ _ _ F). field. split; lra. }
    rewrite M, sin_sub_2PIk. assert (S : sin (2 * PI * (u / o_period o) + PI / 2) = cos (2 * PI * (u / o_period o))) by (rewrite sin_plus, sin_PI2, cos_PI2; ring). rewrite S.
    assert (C : cos (2 * PI * (u / o_period o)) = cos (2 * PI * (d / o_period o))).
    { unfold d, Rabs. destruct (Rcase_abs u); [|reflexivity]. rewrite <- cos_neg. f_equal. field. lra. }
    rewrite C. ring. }
  assert (d0 : 0 <= d) by apply Rabs_pos. assert (W : forall c, c * o_period o < d -> c < d / o_period o).
  { intros c H. apply (Rmult_lt_reg_r (o_period o)); [exact HP|]. unfold Rdiv. rewrite Rmult_assoc, Rinv_l by lra. lra. }
  assert (W' : forall c, d < c * o_period o -> d / o_period o < c).
  { intros c H. apply (Rmult_lt_reg_r (o_period o)); [exact HP|]. unfold Rdiv. rewrite Rmult_assoc, Rinv_l by lra. lra. }
  assert (W0 : 0 <= d / o_period o) by (apply Rmult_le_pos; [exact d0|left; apply Rinv_0_lt_compat; exact HP]).
  rewrite V. split.
  - intro H. assert (K := W' (1 / 4) ltac:(lra)). apply Rmult_lt_0_compat; [apply Rmult_lt_0_compat; assumption|]. apply cos_gt_0; nra.
  - intros [H1 H2]. assert (K := W (1 / 4) ltac:(lra)). assert (K2 : d / o_period o < 3 / 4) by (apply W'; lra).
    assert (C := cos_lt_0 (2 * PI * (d / o_period o)) ltac:(nra) ltac:(nra)). apply Ropp_lt_cancel. rewrite Ropp_0, Ropp_mult_distr_r. apply Rmult_lt_0_compat; [apply Rmult_lt_0_compat; assumption|lra].
Qed.
