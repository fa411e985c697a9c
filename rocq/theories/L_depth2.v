(** * The depth of transits *)
From Coq Require Import Reals Lra Lia Psatz List Bool Arith ZArith.
From Coquelicot Require Import Coquelicot.
From Verif Require Import Num CoreOps Inst CoreFlux M_units M_kepler M_fin M_tensor M_limbdark M_simple Spec_orbit Spec_params Spec_array Spec_light Spec_depth
  L_real L_flux L_area L_depth L_light1 L_light7 L_light8.
Import ListNotations.
Open Scope R_scope.

Lemma rel_hidden u1 u2 b r los : disk_flux u1 u2 <> 0 -> 0 < los -> rel_flux u1 u2 b r los = - hidden_flux (intensity u1 u2) (Rabs b) (Rabs r) / disk_flux u1 u2.
Proof.
  intros Hd Hl. unfold rel_flux. destruct (Rlt_dec 0 los); [|lra]. rewrite visible_hidden by (try apply Rabs_pos; intro; apply intensity_cont). rewrite <- disk_full. field. exact Hd.
Qed.
Lemma darkening_iff u1 u2 : darkening u1 u2 <-> 0 <= u1 /\ 0 <= u1 + 2 * u2.
Proof.
  unfold darkening, intensity. split.
  - intro H. assert (A := H 0 1 ltac:(lra) ltac:(lra)). split.
    + destruct (Rle_dec 0 u1) as [h|h]; [exact h|exfalso]. destruct (Rle_dec u2 0) as [h2|h2]; [lra|]. set (d := Rmin 1 (- u1 / (2 * u2))).
      assert (D0 : 0 < - u1 / (2 * u2)) by (apply Rdiv_lt_0_compat; lra). assert (D : 0 < d <= 1) by (unfold d, Rmin; destruct (Rle_dec 1 _); lra).
      assert (D2 : d * u2 <= - u1 / 2). { apply Rle_trans with (- u1 / (2 * u2) * u2); [apply Rmult_le_compat_r; [lra|apply Rmin_r]|right; field; lra]. }
      assert (B := H (1 - d) 1 ltac:(lra) ltac:(lra)). assert (0 <= d * (u1 + d * u2)) by lra. assert (d * (u1 + d * u2) < 0) by (assert (0 < d * - (u1 + d * u2)) by (apply Rmult_lt_0_compat; lra); lra). lra.
    + destruct (Rle_dec 0 (u1 + 2 * u2)) as [h|h]; [exact h|exfalso]. destruct (Rle_dec 0 u2) as [h2|h2].
      { assert (u1 + u2 < 0) by lra. lra. }
      set (d := Rmin 1 ((u1 + 2 * u2) / (2 * u2))). assert (D0 : 0 < (u1 + 2 * u2) / (2 * u2)) by (replace ((u1 + 2 * u2) / (2 * u2)) with (- (u1 + 2 * u2) / - (2 * u2)) by (field; lra); apply Rdiv_lt_0_compat; lra).
      assert (D : 0 < d <= 1) by (unfold d, Rmin; destruct (Rle_dec 1 _); lra).
      assert (D2 : d * - u2 <= - (u1 + 2 * u2) / 2). { apply Rle_trans with ((u1 + 2 * u2) / (2 * u2) * - u2); [apply Rmult_le_compat_r; [lra|apply Rmin_r]|right; field; lra]. }
      assert (B := H 0 d ltac:(lra) ltac:(lra)). assert (0 <= d * (u1 + 2 * u2 - d * u2)) by lra. assert (0 < d * - (u1 + 2 * u2 - d * u2)) by (apply Rmult_lt_0_compat; lra). lra.
  - intros [H1 H2] mu mu' Hm Hm'. assert (E : 1 - u1 * (1 - mu') - u2 * ((1 - mu') * (1 - mu')) - (1 - u1 * (1 - mu) - u2 * ((1 - mu) * (1 - mu))) = (mu' - mu) * (u1 + u2 * (2 - mu - mu'))) by ring.
    assert (0 <= u1 + u2 * (2 - mu - mu')) by (destruct (Rle_dec 0 u2); nra). assert (0 <= (mu' - mu) * (u1 + u2 * (2 - mu - mu'))) by (apply Rmult_le_pos; lra). lra.
Qed.
Lemma div_le_r x y d : 0 < d -> x <= y -> x / d <= y / d.
Proof. intros Hd H. apply Rmult_le_compat_r; [left; apply Rinv_0_lt_compat; exact Hd|exact H]. Qed.
(** ** one entry *)
Lemma rel_flux_radius u1 u2 b r r' los : bright u1 u2 -> disk_flux u1 u2 <> 0 -> Rabs r <= Rabs r' -> rel_flux u1 u2 b r' los <= rel_flux u1 u2 b r los.
Proof.
  intros Hb Hd Hr. assert (D := bright_disk u1 u2 Hb). destruct (Rlt_dec 0 los) as [h|h].
  - rewrite !rel_hidden by assumption. apply div_le_r; [lra|]. apply Ropp_le_contravar, hidden_flux_radius; [intro; apply intensity_cont|apply Rabs_pos|split; [apply Rabs_pos|exact Hr]|exact Hb].
  - unfold rel_flux. destruct (Rlt_dec 0 los); [contradiction|lra].
Qed.
Lemma rel_flux_distance u1 u2 b b' r los los' : bright u1 u2 -> darkening u1 u2 -> disk_flux u1 u2 <> 0 -> Rabs b <= Rabs b' -> 0 < los -> rel_flux u1 u2 b r los <= rel_flux u1 u2 b' r los'.
Proof.
  intros Hb Hk Hd Hr Hl. assert (D := bright_disk u1 u2 Hb). destruct (Rlt_dec 0 los') as [h|h].
  - rewrite !rel_hidden by assumption. apply div_le_r; [lra|]. apply Ropp_le_contravar, hidden_flux_distance; [intro; apply intensity_cont|split; [apply Rabs_pos|exact Hr]|apply Rabs_pos|exact Hb|exact Hk].
  - unfold rel_flux at 2. destruct (Rlt_dec 0 los'); [contradiction|]. apply rel_flux_range; assumption.
Qed.
Lemma rel_flux_upper u1 u2 b r los M : 0 < disk_flux u1 u2 -> 0 < los -> 0 <= M ->
  (forall rho, 0 <= rho <= 1 -> Rabs (rho - Rabs b) <= Rabs r -> brightness u1 u2 rho <= M) -> - (M * (PI * (r * r)) / disk_flux u1 u2) <= rel_flux u1 u2 b r los.
Proof.
  intros Hd Hl HM H. rewrite rel_hidden by (try lra). rewrite <- Ropp_div. apply div_le_r; [exact Hd|]. apply Ropp_le_contravar. replace (r * r) with (Rabs r * Rabs r) by (rewrite <- Rabs_mult; apply Rabs_pos_eq, Rle_0_sqr).
  apply hidden_flux_upper; [intro; apply intensity_cont|apply Rabs_pos|apply Rabs_pos|exact HM|]. intros rho H1 H2. apply H; [exact H2|]. apply Rabs_le. lra.
Qed.
Lemma rel_flux_lower u1 u2 b r los m : 0 < disk_flux u1 u2 -> 0 < los -> Rabs b + Rabs r <= 1 ->
  (forall rho, 0 <= rho <= 1 -> Rabs (rho - Rabs b) <= Rabs r -> m <= brightness u1 u2 rho) -> rel_flux u1 u2 b r los <= - (m * (PI * (r * r)) / disk_flux u1 u2).
Proof.
  intros Hd Hl Hb H. rewrite rel_hidden by (try lra). rewrite <- Ropp_div. apply div_le_r; [exact Hd|]. apply Ropp_le_contravar. replace (r * r) with (Rabs r * Rabs r) by (rewrite <- Rabs_mult; apply Rabs_pos_eq, Rle_0_sqr).
  apply hidden_flux_lower; [intro; apply intensity_cont|apply Rabs_pos|apply Rabs_pos|exact Hb|]. intros rho H1 H2. apply H; [exact H2|]. apply Rabs_le. lra.
Qed.
Lemma uniform_disk : disk_flux 0 0 = PI.
Proof. rewrite disk_value. field. Qed.
Lemma uniform_intensity mu : intensity 0 0 mu = 1.
Proof. unfold intensity. ring. Qed.
Lemma uniform_hidden b r : hidden_flux (intensity 0 0) b r = RInt (band b r) 0 1.
Proof. apply RInt_ext. intros x _. rewrite uniform_intensity. eqR. ring. Qed.
Lemma uniform_inside b r los : 0 < los -> Rabs b + Rabs r <= 1 -> rel_flux 0 0 b r los = - (r * r).
Proof.
  intros Hl H. assert (Hpi := PI_RGT_0). rewrite rel_hidden by (rewrite ?uniform_disk; lra). rewrite uniform_disk, uniform_hidden. rewrite (is_RInt_unique _ _ _ _ (band_area (Rabs b) (Rabs r) 1 (Rabs_pos b) (Rabs_pos r) H)).
  rewrite <- Rabs_mult, (Rabs_pos_eq (r * r)) by apply Rle_0_sqr. field. lra.
Qed.
Lemma uniform_common b r los : 0 < los -> b <> 0 -> r <> 0 -> rel_flux 0 0 b r los = - (common_area (Rabs b) (Rabs r) / PI).
Proof.
  intros Hl Hb Hr. assert (Hpi := PI_RGT_0). rewrite rel_hidden by (rewrite ?uniform_disk; lra). rewrite uniform_disk, uniform_hidden.
  unfold band. rewrite lens_area by (try lra; apply Rabs_pos_lt; assumption). unfold lens, common_area. rewrite !Rmult_1_l, !Rmult_1_r. unfold Rdiv at 1. unfold Rdiv. ring.
Qed.
Lemma fluxes : forall u1 u2 b b' r r' los los' i bi bi' ri ri' li li', disk_flux u1 u2 <> 0 ->
  aget b i = Fin bi -> aget r i = Fin ri -> aget los i = Fin li -> aget b' i = Fin bi' -> aget r' i = Fin ri' -> aget los' i = Fin li' ->
  exists v v', aget (compute_light_curve (ld_init (Fin u1) (Fin u2)) b r (Some los)) i = Fin v /\ aget (compute_light_curve (ld_init (Fin u1) (Fin u2)) b' r' (Some los')) i = Fin v' /\
    (bright u1 u2 -> bi = bi' -> li = li' -> Rabs ri <= Rabs ri' -> v' <= v) /\
    (bright u1 u2 -> darkening u1 u2 -> ri = ri' -> Rabs bi <= Rabs bi' -> 0 < li -> v <= v').
Proof.
  intros u1 u2 b b' r r' los los' i bi bi' ri ri' li li' Hd H1 H2 H3 H4 H5 H6. eexists _, _. split; [apply flux_elt; eassumption|]. split; [apply flux_elt; eassumption|]. split.
  - intros Hb -> -> Hr. apply rel_flux_radius; assumption.
  - intros Hb Hk -> Hbb Hl. apply rel_flux_distance; assumption.
Qed.
Lemma flux_depth : forall u1 u2 b r los i bi ri li, 0 < disk_flux u1 u2 ->
  aget b i = Fin bi -> aget r i = Fin ri -> aget los i = Fin li -> 0 < li ->
  exists v, aget (compute_light_curve (ld_init (Fin u1) (Fin u2)) b r (Some los)) i = Fin v /\
    (forall M, 0 <= M -> (forall rho, 0 <= rho <= 1 -> Rabs (rho - Rabs bi) <= Rabs ri -> brightness u1 u2 rho <= M) -> - (M * (PI * (ri * ri)) / disk_flux u1 u2) <= v) /\
    (forall m, Rabs bi + Rabs ri <= 1 -> (forall rho, 0 <= rho <= 1 -> Rabs (rho - Rabs bi) <= Rabs ri -> m <= brightness u1 u2 rho) -> v <= - (m * (PI * (ri * ri)) / disk_flux u1 u2)).
Proof.
  intros u1 u2 b r los i bi ri li Hd H1 H2 H3 Hl. eexists. split; [apply flux_elt; try eassumption; lra|]. split.
  - intros M HM H. apply rel_flux_upper; assumption.
  - intros m Hb H. apply rel_flux_lower; assumption.
Qed.
(** the approximation used by get_ror_from_approx_transit_depth at the two
    edges of the planet encloses the depth *)
Lemma flux_approx : forall u1 u2 b r los i bi ri li, 0 < disk_flux u1 u2 -> bright u1 u2 -> darkening u1 u2 ->
  aget b i = Fin bi -> aget r i = Fin ri -> aget los i = Fin li -> 0 < li -> 0 <= bi -> 0 <= ri -> bi + ri <= 1 ->
  exists v, aget (compute_light_curve (ld_init (Fin u1) (Fin u2)) b r (Some los)) i = Fin v /\
    depth u1 u2 (bi + ri) ri <= - v <= depth u1 u2 (Rmax 0 (bi - ri)) ri.
Proof.
  intros u1 u2 b r los i bi ri li Hd Hb Hk H1 H2 H3 Hl B0 R0 BR. destruct (flux_depth u1 u2 b r los i bi ri li Hd H1 H2 H3 Hl) as (v & E & U & L). exists v. split; [exact E|].
  rewrite !Rabs_pos_eq in * by assumption.
  assert (Mono : forall p q, 0 <= p <= q -> q <= 1 -> brightness u1 u2 q <= brightness u1 u2 p).
  { intros p q Hp Hq. apply Hk; [|rewrite <- sqrt_1 at 2; apply sqrt_le_1_alt; nra]. split; [apply sqrt_pos|apply sqrt_le_1_alt; nra]. }
  assert (X1 := Rmax_l 0 (bi - ri)). assert (X2 := Rmax_r 0 (bi - ri)). assert (X3 : Rmax 0 (bi - ri) <= 1) by (apply Rmax_lub; lra).
  split.
  - assert (Q := L (brightness u1 u2 (bi + ri)) BR). assert (Q' : v <= - (brightness u1 u2 (bi + ri) * (PI * (ri * ri)) / disk_flux u1 u2)).
    { apply Q. intros rho Hrho Ha. apply Rabs_le_between in Ha. apply Mono; lra. }
    unfold depth. fold (brightness u1 u2 (bi + ri)). replace (PI * (ri * ri) * brightness u1 u2 (bi + ri)) with (brightness u1 u2 (bi + ri) * (PI * (ri * ri))) by ring. lra.
  - set (w := Rmax 0 (bi - ri)) in *. assert (Q' : - (brightness u1 u2 w * (PI * (ri * ri)) / disk_flux u1 u2) <= v).
    { apply U; [apply Hb; split; [apply sqrt_pos|rewrite <- sqrt_1 at 2; apply sqrt_le_1_alt; nra]|]. intros rho Hrho Ha. apply Rabs_le_between in Ha. apply Mono; [|lra]. split; [exact X1|]. apply Rmax_lub; lra. }
    unfold depth. fold (brightness u1 u2 w). replace (PI * (ri * ri) * brightness u1 u2 w) with (brightness u1 u2 w * (PI * (ri * ri))) by ring. lra.
Qed.
Lemma flux_uniform : forall b r los i bi ri li, aget b i = Fin bi -> aget r i = Fin ri -> aget los i = Fin li -> 0 < li ->
  exists v, aget (compute_light_curve (ld_init (Fin 0) (Fin 0)) b r (Some los)) i = Fin v /\
    (Rabs bi + Rabs ri <= 1 -> v = - (ri * ri)) /\ (bi <> 0 -> ri <> 0 -> v = - (common_area (Rabs bi) (Rabs ri) / PI)).
Proof.
  intros b r los i bi ri li H1 H2 H3 Hl. assert (Hpi := PI_RGT_0). eexists. split; [apply flux_elt; try eassumption; rewrite uniform_disk; lra|]. split; intros; [apply uniform_inside|apply uniform_common]; assumption.
Qed.
