(** * Facts about floor, mod, arctan2, trigonometry *)
From Coq Require Import Reals Lra Lia ZArith Bool.
From Verif Require Import Num.
Open Scope R_scope.

(** ** booleans *)
Lemma Rltb_true x y : Rltb x y = true <-> x < y.
Proof. unfold Rltb; destruct (Rlt_dec x y); split; intros; auto; discriminate. Qed.
Lemma Rltb_false x y : Rltb x y = false <-> y <= x.
Proof. unfold Rltb; destruct (Rlt_dec x y); split; intros; auto; try discriminate; lra. Qed.
Lemma Rleb_true x y : Rleb x y = true <-> x <= y.
Proof. unfold Rleb; destruct (Rle_dec x y); split; intros; auto; discriminate. Qed.
Lemma Rleb_false x y : Rleb x y = false <-> y < x.
Proof. unfold Rleb; destruct (Rle_dec x y); split; intros; auto; try discriminate; lra. Qed.
Lemma Reqb_true x y : Reqb x y = true <-> x = y.
Proof. unfold Reqb; destruct (Req_EM_T x y); split; intros; auto; discriminate. Qed.
Lemma Reqb_false x y : Reqb x y = false <-> x <> y.
Proof. unfold Reqb; destruct (Req_EM_T x y); split; intros; auto; try discriminate; lra. Qed.

(** ** floor *)
Lemma Zfloor_spec x : IZR (Zfloor x) <= x < IZR (Zfloor x) + 1.
Proof. unfold Zfloor. destruct (base_Int_part x). lra. Qed.

Lemma Zfloor_unique x n : IZR n <= x < IZR n + 1 -> Zfloor x = n.
Proof.
  intros H. generalize (Zfloor_spec x); intros H'.
  assert (Zfloor x < n + 1)%Z by (apply lt_IZR; rewrite plus_IZR; lra).
  assert (n < Zfloor x + 1)%Z by (apply lt_IZR; rewrite plus_IZR; lra).
  lia.
Qed.

Lemma Zfloor_add_Z x n : Zfloor (x + IZR n) = (Zfloor x + n)%Z.
Proof.
  apply Zfloor_unique. rewrite plus_IZR. generalize (Zfloor_spec x). lra.
Qed.

Lemma Zfloor_IZR n : Zfloor (IZR n) = n.
Proof. apply Zfloor_unique. lra. Qed.

Lemma Zfloor_le x y : x <= y -> (Zfloor x <= Zfloor y)%Z.
Proof.
  intros H. generalize (Zfloor_spec x) (Zfloor_spec y); intros.
  assert (Zfloor x < Zfloor y + 1)%Z by (apply lt_IZR; rewrite plus_IZR; lra). lia.
Qed.

Lemma Zceil_spec x : IZR (Zceil x) - 1 < x <= IZR (Zceil x).
Proof. unfold Zceil. rewrite opp_IZR. generalize (Zfloor_spec (- x)). lra. Qed.

(** ** mod *)
Lemma Rmodulo_bounds x y : 0 < y -> 0 <= Rmodulo x y < y.
Proof.
  intros Hy. unfold Rmodulo, Rfloor. generalize (Zfloor_spec (x / y)); intros [H1 H2].
  assert (x = (x / y) * y) by (field; lra).
  split; [assert (IZR (Zfloor (x / y)) * y <= x / y * y) by nra
         |assert (x / y * y < (IZR (Zfloor (x / y)) + 1) * y) by nra]; lra.
Qed.

Lemma Rmodulo_eq x y : exists k : Z, Rmodulo x y = x - IZR k * y.
Proof. exists (Zfloor (x / y)). unfold Rmodulo, Rfloor. ring. Qed.

Lemma Rmodulo_unique x y k : 0 < y -> 0 <= x - IZR k * y < y -> Rmodulo x y = x - IZR k * y.
Proof.
  intros Hy H. unfold Rmodulo, Rfloor.
  assert (Zfloor (x / y) = k) as ->; [|ring].
  apply Zfloor_unique.
  assert (x / y = (x - IZR k * y) / y + IZR k) as -> by (field; lra).
  assert (0 <= (x - IZR k * y) / y).
  { unfold Rdiv. apply Rmult_le_pos; [lra|]. left; apply Rinv_0_lt_compat; lra. }
  assert ((x - IZR k * y) / y < 1).
  { apply Rmult_lt_reg_r with y; auto. unfold Rdiv. rewrite Rmult_assoc, Rinv_l by lra. lra. }
  lra.
Qed.

Lemma Rmodulo_add_mult x y k : y <> 0 -> Rmodulo (x + IZR k * y) y = Rmodulo x y.
Proof.
  intros Hy. unfold Rmodulo, Rfloor.
  replace ((x + IZR k * y) / y) with (x / y + IZR k) by (field; auto).
  rewrite Zfloor_add_Z, plus_IZR. ring.
Qed.

(** wrap into [-p/2, p/2) *)
Lemma wrap_half_eq x p : 0 < p -> exists k : Z,
  Rmodulo (x + 0.5 * p) p - 0.5 * p = x - IZR k * p /\
  - (0.5 * p) <= x - IZR k * p < 0.5 * p.
Proof.
  intros Hp. destruct (Rmodulo_eq (x + 0.5 * p) p) as [k Hk]. exists k.
  generalize (Rmodulo_bounds (x + 0.5 * p) p Hp). rewrite Hk. lra.
Qed.

(** ** trigonometry *)
Lemma sin2_cos2' x : sin x * sin x + cos x * cos x = 1.
Proof. generalize (sin2_cos2 x). unfold Rsqr. auto. Qed.

Lemma cos_sub_2PIk x k : cos (x + IZR k * (2 * PI)) = cos x.
Proof.
  destruct (Z_le_gt_dec 0 k) as [h|h].
  - destruct (IZN k) as [n ->]; [lia|]. rewrite <- INR_IZR_INZ.
    replace (x + INR n * (2 * PI)) with (x + 2 * INR n * PI) by ring. apply cos_period.
  - destruct (IZN (- k)) as [n Hn]; [lia|].
    assert (k = - Z.of_nat n)%Z as -> by lia. rewrite opp_IZR, <- INR_IZR_INZ.
    rewrite <- (cos_period (x + - INR n * (2 * PI)) n). f_equal. ring.
Qed.
Lemma sin_sub_2PIk x k : sin (x + IZR k * (2 * PI)) = sin x.
Proof.
  rewrite <- (cos_shift (x + IZR k * (2 * PI))), <- (cos_shift x).
  replace (PI / 2 - (x + IZR k * (2 * PI))) with (PI / 2 - x + IZR (- k) * (2 * PI))
    by (rewrite opp_IZR; ring).
  apply cos_sub_2PIk.
Qed.

Lemma sincos_inj a b : sin a = sin b -> cos a = cos b -> exists k : Z, a = b + IZR k * (2 * PI).
Proof.
  intros Hs Hc.
  assert (cos (a - b) = 1).
  { rewrite cos_minus, Hs, Hc. generalize (sin2_cos2' b). lra. }
  assert (sin ((a - b) / 2) = 0).
  { replace (a - b) with (2 * ((a - b) / 2)) in H by field.
    rewrite cos_2a_sin in H. nra. }
  destruct (sin_eq_0_0 _ H0) as [n Hn]. exists n. lra.
Qed.

Lemma sincos_inj_PI a b : - PI < a <= PI -> - PI < b <= PI ->
  sin a = sin b -> cos a = cos b -> a = b.
Proof.
  intros Ha Hb Hs Hc. destruct (sincos_inj a b Hs Hc) as [n ->].
  assert (PI > 0) by apply PI_RGT_0.
  assert (n = 0)%Z as ->; [|lra].
  assert (- 1 < IZR n) by (apply Rmult_lt_reg_r with (2 * PI); lra).
  assert (IZR n < 1) by (apply Rmult_lt_reg_r with (2 * PI); lra).
  apply lt_IZR in H1. replace (-1) with (IZR (-1)) in H0 by reflexivity.
  apply lt_IZR in H0. lia.
Qed.

(** every unit vector is (cos w, sin w) for some w in (-PI, PI] *)
Lemma atan_bound' x : - (PI / 2) < atan x < PI / 2.
Proof. generalize (atan_bound x). lra. Qed.

Lemma Ratan2_bounds y x : - PI < Ratan2 y x <= PI.
Proof.
  unfold Ratan2. assert (PI > 0) by apply PI_RGT_0.
  destruct (Rlt_dec 0 x). { generalize (atan_bound' (y / x)). lra. }
  destruct (Rlt_dec x 0).
  - destruct (Rle_dec 0 y).
    + assert (atan (y / x) <= 0).
      { destruct (Req_dec y 0) as [->|].
        - unfold Rdiv. rewrite Rmult_0_l, atan_0. lra.
        - left. rewrite <- atan_0. apply atan_increasing.
          unfold Rdiv. assert (/ x < 0) by (apply Rinv_lt_0_compat; lra). nra. }
      generalize (atan_bound' (y / x)). lra.
    + assert (0 < atan (y / x)).
      { rewrite <- atan_0. apply atan_increasing.
        unfold Rdiv. assert (/ x < 0) by (apply Rinv_lt_0_compat; lra). nra. }
      generalize (atan_bound' (y / x)). lra.
  - destruct (Rlt_dec 0 y); [lra|]. destruct (Rlt_dec y 0); lra.
Qed.

Lemma sqrt_pos_lt x : 0 < x -> 0 < sqrt x.
Proof. apply sqrt_lt_R0. Qed.

Lemma sqr_sqrt x : 0 <= x -> sqrt x * sqrt x = x.
Proof. apply sqrt_sqrt. Qed.

Lemma cos_atan_eq x : cos (atan x) = / sqrt (1 + x * x).
Proof. rewrite cos_atan. unfold Rsqr. field_simplify; [reflexivity| |];
  apply Rgt_not_eq, sqrt_lt_R0; nra. Qed.
Lemma sin_atan_eq x : sin (atan x) = x / sqrt (1 + x * x).
Proof. rewrite sin_atan. unfold Rsqr. reflexivity. Qed.

Lemma Ratan2_polar y x : x * x + y * y <> 0 ->
  cos (Ratan2 y x) = x / sqrt (x * x + y * y) /\
  sin (Ratan2 y x) = y / sqrt (x * x + y * y).
Proof.
  intros Hnz.
  assert (Hx : forall x, x <> 0 -> sqrt (1 + y / x * (y / x)) = sqrt (x * x + y * y) / Rabs x).
  { intros x' Hx'. replace (1 + y / x' * (y / x')) with ((x' * x' + y * y) / (x' * x')) by (field; auto).
    rewrite sqrt_div_alt by nra. f_equal.
    replace (x' * x') with (Rsqr x') by reflexivity. apply sqrt_Rsqr_abs. }
  assert (Hs : 0 < x * x + y * y) by nra.
  assert (Hs' := sqrt_lt_R0 _ Hs).
  unfold Ratan2.
  destruct (Rlt_dec 0 x).
  { rewrite cos_atan_eq, sin_atan_eq, Hx, Rabs_pos_eq by lra. split; field; lra. }
  destruct (Rlt_dec x 0).
  - destruct (Rle_dec 0 y).
    + rewrite neg_cos, neg_sin, cos_atan_eq, sin_atan_eq, Hx, Rabs_left by lra. split; field; lra.
    + unfold Rminus. rewrite cos_plus, sin_plus, cos_neg, sin_neg, cos_PI, sin_PI.
      rewrite cos_atan_eq, sin_atan_eq, Hx, Rabs_left by lra. split; field; lra.
  - assert (x = 0) by lra. subst x.
    replace (0 * 0 + y * y) with (y * y) by ring.
    destruct (Rlt_dec 0 y).
    + rewrite cos_PI2, sin_PI2. rewrite sqrt_square by lra. split; field; lra.
    + destruct (Rlt_dec y 0).
      * rewrite cos_neg, sin_neg, cos_PI2, sin_PI2.
        replace (y * y) with ((- y) * (- y)) by ring. rewrite sqrt_square by lra. split; field; lra.
      * exfalso. apply Hnz. replace y with 0 by lra. ring.
Qed.

Lemma Ratan2_polar_inv r th : 0 < r -> - PI < th <= PI -> Ratan2 (r * sin th) (r * cos th) = th.
Proof.
  intros Hr Hth.
  assert (E : r * cos th * (r * cos th) + r * sin th * (r * sin th) = r * r).
  { generalize (sin2_cos2' th). intros h.
    replace (r * cos th * (r * cos th) + r * sin th * (r * sin th))
      with (r * r * (sin th * sin th + cos th * cos th)) by ring. rewrite h. ring. }
  destruct (Ratan2_polar (r * sin th) (r * cos th)) as [Hc Hs].
  { rewrite E. nra. }
  rewrite E, sqrt_square in Hc, Hs by lra.
  apply sincos_inj_PI; auto using Ratan2_bounds.
  - rewrite Hs. field. lra.
  - rewrite Hc. field. lra.
Qed.

Lemma Ratan2_scale c y x : 0 < c -> Ratan2 (c * y) (c * x) = Ratan2 y x.
Proof.
  intros Hc. destruct (Req_dec (x * x + y * y) 0) as [h|h].
  - assert (x = 0) as -> by nra. assert (y = 0) as -> by nra. rewrite !Rmult_0_r. reflexivity.
  - destruct (Ratan2_polar y x h) as [Hx Hy].
    assert (0 < x * x + y * y) by nra.
    set (r := sqrt (x * x + y * y)) in *.
    assert (0 < r) by (apply sqrt_lt_R0; lra).
    set (th := Ratan2 y x) in *.
    assert (x = r * cos th) as E1 by (rewrite Hx; field; lra).
    assert (y = r * sin th) as E2 by (rewrite Hy; field; lra).
    rewrite E1, E2, <- !Rmult_assoc. apply Ratan2_polar_inv.
    + nra. + apply Ratan2_bounds.
Qed.

Lemma Ratan2_00 : Ratan2 0 0 = 0.
Proof. unfold Ratan2. destruct (Rlt_dec 0 0); lra. Qed.

(** unit vectors *)
Lemma unit_vector_angle c s : c * c + s * s = 1 ->
  cos (Ratan2 s c) = c /\ sin (Ratan2 s c) = s.
Proof.
  intros H. destruct (Ratan2_polar s c) as [Hc Hs]; [lra|].
  rewrite H, sqrt_1 in Hc, Hs. lra.
Qed.

Lemma cos_sin_period_Z x (m : Z) :
  cos (x + 2 * IZR m * PI) = cos x /\ sin (x + 2 * IZR m * PI) = sin x.
Proof.
  destruct (Z_le_gt_dec 0 m) as [Hm|Hm].
  - rewrite <- (Z2Nat.id m) by lia. rewrite <- INR_IZR_INZ. split; [apply cos_period|apply sin_period].
  - set (n := Z.to_nat (- m)).
    assert (E : IZR m = - INR n). { unfold n. rewrite INR_IZR_INZ, Z2Nat.id by lia. rewrite opp_IZR. lra. }
    rewrite E. split.
    + rewrite <- (cos_period (x + 2 * - INR n * PI) n). f_equal. ring.
    + rewrite <- (sin_period (x + 2 * - INR n * PI) n). f_equal. ring.
Qed.
Lemma cos_period_Z x (m : Z) : cos (x + 2 * IZR m * PI) = cos x.
Proof. apply cos_sin_period_Z. Qed.
Lemma sin_period_Z x (m : Z) : sin (x + 2 * IZR m * PI) = sin x.
Proof. apply cos_sin_period_Z. Qed.

Lemma nearest_Z x : exists m : Z, - (1 / 2) <= x - IZR m <= 1 / 2.
Proof. exists (Zfloor (x + 1 / 2)). generalize (Zfloor_spec (x + 1 / 2)). lra. Qed.
