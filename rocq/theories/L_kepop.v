(** * Facts about Kepler's equation *)
From Coq Require Import Reals Lra Lia ZArith.
From Coquelicot Require Import Coquelicot.
From Verif Require Import Num CoreOps L_real.
Open Scope R_scope.

Lemma ecc_anom_spec M e : Rabs e < 1 -> ecc_anom M e - e * sin (ecc_anom M e) = M.
Proof.
  intros He. unfold ecc_anom. destruct (Rlt_dec (Rabs e) 1) as [h|h]; [|lra].
  destruct (kepler_exists e M h) as [E [HE0 HE]]; simpl. unfold kepler_eqn in HE. lra.
Qed.

Lemma sin_abs_le x : Rabs (sin x) <= Rabs x.
Proof.
  assert (P : forall y, 0 <= y -> Rabs (sin y) <= y).
  { intros y Hy. destruct (Req_dec y 0) as [->|].
    - rewrite sin_0, Rabs_R0. lra.
    - assert (sin y < y) by (apply sin_lt_x; lra).
      destruct (Rle_dec y 1).
      + assert (0 <= sin y) by (apply sin_ge_0; generalize PI2_1; lra).
        rewrite Rabs_pos_eq; lra.
      + generalize (SIN_bound y). intros. apply Rabs_le. lra. }
  destruct (Rle_dec 0 x).
  - rewrite (Rabs_pos_eq x) by lra. apply P; lra.
  - rewrite (Rabs_left x) by lra. rewrite <- (Rabs_Ropp (sin x)), <- sin_neg. apply P; lra.
Qed.

Lemma sin_lipschitz a b : Rabs (sin a - sin b) <= Rabs (a - b).
Proof.
  rewrite form4. rewrite !Rabs_mult.
  rewrite (Rabs_pos_eq 2) by lra.
  assert (Rabs (cos ((a + b) / 2)) <= 1) by (apply Rabs_le; generalize (COS_bound ((a+b)/2)); lra).
  generalize (sin_abs_le ((a - b) / 2)). intros H0.
  assert (Rabs ((a - b) / 2) = Rabs (a - b) / 2) as E.
  { unfold Rdiv. rewrite Rabs_mult, (Rabs_pos_eq (/2)) by lra. reflexivity. }
  rewrite E in H0.
  generalize (Rabs_pos (cos ((a + b) / 2))) (Rabs_pos (sin ((a - b) / 2))). nra.
Qed.

(** the map E |-> E - e sin E expands distances by at least 1 - |e| *)
Lemma kepler_expand e a b : Rabs e < 1 ->
  (1 - Rabs e) * Rabs (a - b) <= Rabs ((a - e * sin a) - (b - e * sin b)).
Proof.
  intros He.
  assert (Rabs (a - b) <= Rabs ((a - e * sin a) - (b - e * sin b)) + Rabs (e * (sin a - sin b))).
  { replace (a - b) with ((a - e * sin a - (b - e * sin b)) + e * (sin a - sin b)) at 1 by ring.
    apply Rabs_triang. }
  rewrite (Rabs_mult e) in H. generalize (sin_lipschitz a b) (Rabs_pos e). nra.
Qed.

Lemma kepler_inj e a b : Rabs e < 1 -> a - e * sin a = b - e * sin b -> a = b.
Proof.
  intros He H. generalize (kepler_expand e a b He). rewrite H.
  replace (b - e * sin b - (b - e * sin b)) with 0 by ring. rewrite Rabs_R0. intros H'.
  destruct (Req_dec a b); auto. exfalso.
  assert (0 < Rabs (a - b)) by (apply Rabs_pos_lt; lra). nra.
Qed.

Lemma ecc_anom_unique M e E : Rabs e < 1 -> E - e * sin E = M -> ecc_anom M e = E.
Proof.
  intros He H. apply (kepler_inj e); auto. rewrite ecc_anom_spec; auto.
Qed.

Lemma ecc_anom_0 M : ecc_anom M 0 = M.
Proof. apply ecc_anom_unique. rewrite Rabs_R0; lra. lra. Qed.

Lemma ecc_anom_zero e : Rabs e < 1 -> ecc_anom 0 e = 0.
Proof. intros. apply ecc_anom_unique; auto. rewrite sin_0. lra. Qed.

Lemma ecc_anom_PI e : Rabs e < 1 -> ecc_anom PI e = PI.
Proof. intros. apply ecc_anom_unique; auto. rewrite sin_PI. lra. Qed.

Lemma ecc_anom_odd M e : Rabs e < 1 -> ecc_anom (- M) e = - ecc_anom M e.
Proof.
  intros He. apply ecc_anom_unique; auto. rewrite sin_neg.
  generalize (ecc_anom_spec M e He). lra.
Qed.

Lemma ecc_anom_period M e k : Rabs e < 1 ->
  ecc_anom (M + IZR k * (2 * PI)) e = ecc_anom M e + IZR k * (2 * PI).
Proof.
  intros He. apply ecc_anom_unique; auto. rewrite sin_sub_2PIk.
  generalize (ecc_anom_spec M e He). lra.
Qed.

Lemma ecc_anom_lipschitz e M1 M2 : Rabs e < 1 ->
  (1 - Rabs e) * Rabs (ecc_anom M1 e - ecc_anom M2 e) <= Rabs (M1 - M2).
Proof.
  intros He. eapply Rle_trans. apply kepler_expand; auto.
  rewrite !ecc_anom_spec by auto. lra.
Qed.

Lemma eprod_bound e c : Rabs e < 1 -> -1 <= c <= 1 -> -1 < e * c < 1.
Proof.
  intros He Hc.
  assert (Rabs (e * c) < 1).
  { rewrite Rabs_mult. assert (Rabs c <= 1) by (apply Rabs_le; lra).
    generalize (Rabs_pos e) (Rabs_pos c). nra. }
  apply Rabs_def2 in H. lra.
Qed.
Lemma ecos_pos e x : Rabs e < 1 -> 0 < 1 - e * cos x.
Proof. intros He. generalize (eprod_bound e (cos x) He (COS_bound x)). lra. Qed.
Lemma ecos_pos' e x : Rabs e < 1 -> 0 < 1 + e * cos x.
Proof. intros He. generalize (eprod_bound e (cos x) He (COS_bound x)). lra. Qed.
Lemma esin_pos' e x : Rabs e < 1 -> 0 < 1 + e * sin x.
Proof. intros He. generalize (eprod_bound e (sin x) He (SIN_bound x)). lra. Qed.

Lemma ecc_anom_derive M e : Rabs e < 1 ->
  is_derive (fun m => ecc_anom m e) M (/ (1 - e * cos (ecc_anom M e))).
Proof.
  intros He. apply is_derive_Reals. intros eps Heps.
  set (E := ecc_anom M e). set (D := 1 - e * cos E). set (m := 1 - Rabs e).
  assert (HD : 0 < D) by (apply ecos_pos; auto).
  assert (Hm : 0 < m) by (unfold m; lra).
  set (eta := eps * m * D / 2).
  assert (Heta : 0 < eta) by (unfold eta, Rdiv; repeat apply Rmult_lt_0_compat; lra).
  destruct (derivable_pt_lim_sin E eta Heta) as [[del Hdel] Hd]. simpl in Hd.
  assert (Hdm : 0 < del * m) by nra.
  exists (mkposreal _ Hdm). intros h Hh0 Hh. simpl in Hh.
  set (E' := ecc_anom (M + h) e). set (d := E' - E).
  assert (HL : m * Rabs d <= Rabs h).
  { unfold d, E', E, m. replace h with (M + h - M) at 2 by ring. apply ecc_anom_lipschitz; auto. }
  assert (Hhd : h = d - e * (sin (E + d) - sin E)).
  { unfold d. replace (E + (E' - E)) with E' by ring.
    generalize (ecc_anom_spec (M + h) e He) (ecc_anom_spec M e He). fold E E'. lra. }
  assert (Hdn : d <> 0).
  { intros h0. rewrite h0, Rplus_0_r in Hhd. lra. }
  assert (Hdd : Rabs d < del).
  { apply Rmult_lt_reg_r with m; auto. lra. }
  specialize (Hd d Hdn Hdd).
  assert (Hk : d * D - h = e * (sin (E + d) - sin E - d * cos E)).
  { rewrite Hhd at 1. unfold D. ring. }
  assert (Hn : Rabs (sin (E + d) - sin E - d * cos E) <= eta * Rabs d).
  { replace (sin (E + d) - sin E - d * cos E) with (((sin (E + d) - sin E) / d - cos E) * d)
      by (field; auto).
    rewrite Rabs_mult. apply Rmult_le_compat_r; [apply Rabs_pos|]. left; exact Hd. }
  fold E E'. fold d.
  replace (d / h - / D) with ((d * D - h) / (h * D)) by (field; split; lra).
  rewrite Hk. unfold Rdiv. rewrite Rabs_mult, Rabs_inv, Rabs_mult, (Rabs_mult h), (Rabs_pos_eq D) by lra.
  assert (0 < Rabs h) by (apply Rabs_pos_lt; auto).
  apply Rmult_lt_reg_r with (Rabs h * D); [nra|].
  rewrite Rmult_assoc, Rinv_l, Rmult_1_r by nra.
  assert (Rabs e * Rabs (sin (E + d) - sin E - d * cos E) <= 1 * (eta * Rabs d)).
  { apply Rmult_le_compat; try apply Rabs_pos; auto. lra. }
  assert (eta * Rabs d = eps * D / 2 * (m * Rabs d)) by (unfold eta; field).
  assert (0 < eps * D / 2) by nra.
  assert (eps * D / 2 * (m * Rabs d) <= eps * D / 2 * Rabs h) by (apply Rmult_le_compat_l; lra).
  nra.
Qed.

(** ** sin f and cos f *)
Lemma one_m_e2_pos e : Rabs e < 1 -> 0 < 1 - e * e.
Proof. intros He. apply Rabs_def2 in He. nra. Qed.

Lemma kepler_unit M e : Rabs e < 1 ->
  kepler_sinf M e * kepler_sinf M e + kepler_cosf M e * kepler_cosf M e = 1.
Proof.
  intros He. unfold kepler_sinf, kepler_cosf. set (E := ecc_anom M e).
  assert (HD := ecos_pos e E He). assert (Hs := sqr_sqrt _ (Rlt_le _ _ (one_m_e2_pos e He))).
  set (q := sqrt (1 - e * e)) in *. assert (H := sin2_cos2' E).
  apply Rmult_eq_reg_r with ((1 - e * cos E) * (1 - e * cos E)); [|nra].
  field_simplify; [|lra].
  replace (q ^ 2) with (1 - e * e) by (rewrite <- Hs; ring).
  replace (sin E ^ 2) with (1 - cos E * cos E) by (rewrite <- H; ring). ring.
Qed.

(** the orbit equation: (1 - e^2)/(1 + e cos f) = 1 - e cos E *)
Lemma kepler_radius M e : Rabs e < 1 ->
  (1 - e * e) / (1 + e * kepler_cosf M e) = 1 - e * cos (ecc_anom M e).
Proof.
  intros He. unfold kepler_cosf. set (E := ecc_anom M e).
  assert (HD := ecos_pos e E He). assert (H1 := one_m_e2_pos e He).
  assert (1 + e * ((cos E - e) / (1 - e * cos E)) = (1 - e * e) / (1 - e * cos E)) as ->
    by (field; lra).
  field. split; lra.
Qed.
Lemma kepler_1ecosf M e : Rabs e < 1 -> 
  1 + e * kepler_cosf M e = (1 - e * e) / (1 - e * cos (ecc_anom M e)).
Proof.
  intros He. unfold kepler_cosf. set (E := ecc_anom M e).
  assert (HD := ecos_pos e E He). field; lra.
Qed.
Lemma kepler_1ecosf_pos M e : Rabs e < 1 -> 0 < 1 + e * kepler_cosf M e.
Proof.
  intros He. rewrite kepler_1ecosf by auto.
  assert (HD := ecos_pos e (ecc_anom M e) He). assert (H1 := one_m_e2_pos e He).
  apply Rdiv_lt_0_compat; lra.
Qed.

Lemma kepler_sinf_period M e k : Rabs e < 1 ->
  kepler_sinf (M + IZR k * (2 * PI)) e = kepler_sinf M e.
Proof.
  intros He. unfold kepler_sinf. rewrite ecc_anom_period by auto.
  rewrite cos_sub_2PIk, sin_sub_2PIk. reflexivity.
Qed.
Lemma kepler_cosf_period M e k : Rabs e < 1 ->
  kepler_cosf (M + IZR k * (2 * PI)) e = kepler_cosf M e.
Proof.
  intros He. unfold kepler_cosf. rewrite ecc_anom_period by auto.
  rewrite cos_sub_2PIk. reflexivity.
Qed.
Lemma kepler_sinf_0 M : kepler_sinf M 0 = sin M.
Proof.
  unfold kepler_sinf. rewrite ecc_anom_0. rewrite Rmult_0_l, Rminus_0_r, sqrt_1. field.
Qed.
Lemma kepler_cosf_0 M : kepler_cosf M 0 = cos M.
Proof. unfold kepler_cosf. rewrite ecc_anom_0. field. Qed.

(** eccentric anomaly of the true anomaly PI/2 - w (conjunction) *)
Lemma conj_E0 e c s (E0 := 2 * Ratan2 (sqrt (1 - e) * c) (sqrt (1 + e) * (1 + s))) :
  Rabs e < 1 -> c * c + s * s = 1 -> s <> -1 ->
  cos E0 = (s + e) / (1 + e * s) /\ sin E0 = sqrt (1 - e * e) * c / (1 + e * s).
Proof.
  intros He Hu Hs.
  assert (Hs1 : -1 < s) by nra. assert (Hs2 : s <= 1) by nra.
  assert (He' := Rabs_def2 _ _ He).
  assert (Hes : 0 < 1 + e * s) by (assert (-1 <= s <= 1) as hb by lra; generalize (eprod_bound e s He hb); lra).
  set (X := sqrt (1 + e) * (1 + s)) in *. set (Y := sqrt (1 - e) * c) in *.
  assert (HX : X * X = (1 + e) * ((1 + s) * (1 + s))).
  { unfold X. replace (sqrt (1 + e) * (1 + s) * (sqrt (1 + e) * (1 + s)))
      with (sqrt (1 + e) * sqrt (1 + e) * ((1 + s) * (1 + s))) by ring.
    rewrite sqr_sqrt by lra. ring. }
  assert (HY : Y * Y = (1 - e) * (c * c)).
  { unfold Y. replace (sqrt (1 - e) * c * (sqrt (1 - e) * c))
      with (sqrt (1 - e) * sqrt (1 - e) * (c * c)) by ring.
    rewrite sqr_sqrt by lra. ring. }
  assert (HXY : X * Y = sqrt (1 - e * e) * ((1 + s) * c)).
  { unfold X, Y. replace (1 - e * e) with ((1 + e) * (1 - e)) by ring.
    rewrite sqrt_mult by lra. ring. }
  assert (Hc2 : c * c = (1 - s) * (1 + s)) by lra.
  assert (HS : X * X + Y * Y = (1 + s) * (2 * (1 + e * s))).
  { rewrite HX, HY, Hc2. ring. }
  assert (HSp : 0 < X * X + Y * Y) by (rewrite HS; nra).
  destruct (Ratan2_polar Y X) as [Hc Hs']; [lra|].
  set (r := sqrt (X * X + Y * Y)) in *.
  assert (Hr : r * r = X * X + Y * Y) by (apply sqr_sqrt; lra).
  assert (Hrp : 0 < r) by (apply sqrt_lt_R0; auto).
  unfold E0. rewrite cos_2a, sin_2a, Hc, Hs'.
  split.
  - replace (X / r * (X / r) - Y / r * (Y / r)) with ((X * X - Y * Y) / (r * r)) by (field; lra).
    rewrite Hr, HS, HX, HY, Hc2. field. split; lra.
  - replace (2 * (Y / r) * (X / r)) with (2 * (X * Y) / (r * r)) by (field; lra).
    rewrite Hr, HS, HXY. field. split; lra.
Qed.

Lemma conj_anomaly e c s (E0 := 2 * Ratan2 (sqrt (1 - e) * c) (sqrt (1 + e) * (1 + s)))
  (M0 := E0 - e * sin E0) :
  Rabs e < 1 -> c * c + s * s = 1 -> s <> -1 ->
  kepler_sinf M0 e = c /\ kepler_cosf M0 e = s.
Proof.
  intros He Hu Hs. destruct (conj_E0 e c s He Hu Hs) as [Hc Hsn].
  fold E0 in Hc, Hsn.
  unfold kepler_sinf, kepler_cosf. rewrite (ecc_anom_unique M0 e E0) by auto.
  assert (He' := Rabs_def2 _ _ He).
  assert (Hs1 : -1 < s) by nra. assert (Hs2 : s <= 1) by nra.
  assert (Hes : 0 < 1 + e * s) by (assert (-1 <= s <= 1) as hb by lra; generalize (eprod_bound e s He hb); lra).
  assert (Hq := sqr_sqrt _ (Rlt_le _ _ (one_m_e2_pos e He))).
  assert (Hq' := one_m_e2_pos e He).
  rewrite Hc, Hsn. split.
  - replace (sqrt (1 - e * e) * (sqrt (1 - e * e) * c / (1 + e * s)))
      with (sqrt (1 - e * e) * sqrt (1 - e * e) * c / (1 + e * s)) by (field; lra).
    rewrite Hq. field. split; nra.
  - field. split; nra.
Qed.

(** time derivatives of cos E - e and sin E, used for velocities *)
Lemma cosE_derive M e : Rabs e < 1 ->
  is_derive (fun m => cos (ecc_anom m e)) M
    (- sin (ecc_anom M e) / (1 - e * cos (ecc_anom M e))).
Proof.
  intros He. assert (HD := ecos_pos e (ecc_anom M e) He).
  evar_last.
  - apply (is_derive_comp cos (fun m => ecc_anom m e)).
    + apply is_derive_cos. + apply ecc_anom_derive; auto.
  - unfold scal; simpl; unfold mult; simpl. field. lra.
Qed.
Lemma sinE_derive M e : Rabs e < 1 ->
  is_derive (fun m => sin (ecc_anom m e)) M
    (cos (ecc_anom M e) / (1 - e * cos (ecc_anom M e))).
Proof.
  intros He. assert (HD := ecos_pos e (ecc_anom M e) He).
  evar_last.
  - apply (is_derive_comp sin (fun m => ecc_anom m e)).
    + apply is_derive_sin. + apply ecc_anom_derive; auto.
  - unfold scal; simpl; unfold mult; simpl. field. lra.
Qed.
