(** * Lemmas about the interpolated light curve: the class *)
From Coq Require Import Reals List Bool Arith ZArith Lra Lia FunctionalExtensionality.
From Verif Require Import Num CoreOps Inst CoreFlux M_units M_kepler M_tensor M_simple M_ttv M_limbdark M_interpolated
  Spec_orbit Spec_array Spec_light Spec_interp L_fl L_real L_interp.
Import ListNotations.
Open Scope R_scope.

Lemma entries_ok N t ts : observed N t ts -> entries t = Ok (map Fin (map ts (seq 0 N))).
Proof.
  intros [HS HV]. unfold entries. rewrite HS. cbn [rmap prod fold_right]. rewrite Nat.mul_1_r. f_equal. rewrite map_map. apply map_ext_in.
  intros m Hm. apply in_seq in Hm. rewrite <- (HV m) by lia. cbn [unlin]. rewrite Nat.mod_small by lia. reflexivity.
Qed.
Lemma nth_map_seq {A} (f : nat -> A) N m d : (m < N)%nat -> nth m (map f (seq 0 N)) d = f m.
Proof.
  intro H. rewrite (nth_indep _ d (f O)) by (rewrite map_length, seq_length; exact H).
  rewrite map_nth, seq_nth by exact H. reflexivity.
Qed.
Lemma coord_small N m : (m < N)%nat -> coord N m = m.
Proof. intro H. unfold coord. destruct (Nat.eqb_spec N 1); [lia|reflexivity]. Qed.
Lemma lin1 N i : lin [N] i = coord N (i O).
Proof. cbn [lin]. rewrite Nat.mul_0_r, Nat.add_0_r. reflexivity. Qed.
Lemma stacked_table n N (g : nat -> nat -> R) cols :
  cols = map (fun j => map (fun m => Fin (g m j)) (seq 0 N)) (seq 0 n) ->
  light_table n N (stacked [N] cols) g.
Proof.
  intros ->. unfold stacked. rewrite map_length, seq_length. split; [reflexivity|].
  intros m j Hm Hj. cbn [aget at_tp]. rewrite lin1. cbn. rewrite !coord_small by assumption.
  rewrite (nth_map_seq (fun j => map (fun m => Fin (g m j)) (seq 0 N))) by exact Hj.
  rewrite (nth_map_seq (fun m => Fin (g m j))) by exact Hm. reflexivity.
Qed.
Lemma expanded_table N (g : nat -> nat -> R) y : y = map (fun m => Fin (g m O)) (seq 0 N) -> exists Y, expanded [N] y = Ok Y /\ light_table 1 N Y g.
Proof.
  intros ->. unfold expanded. eexists. split; [reflexivity|]. split; [reflexivity|].
  intros m j Hm Hj. assert (j = O) by lia. subst j. cbn [aget at_tp]. rewrite lin1. cbn. rewrite coord_small by assumption.
  rewrite (nth_map_seq (fun m => Fin (g m O))) by exact Hm. reflexivity.
Qed.

Lemma interpolated_value n base Q np tv t0 period f T0 P N t ts :
  interpolating n base Q np tv t0 period f T0 P -> observed N t ts ->
  exists Y, interpolated_light_curve base Q np tv t0 period t = Ok Y /\
    light_table n N Y (fun m j => fold_value (T0 j) (P j) Q (f j) (ts m)).
Proof.
  intros I HT. destruct (ip_base _ _ _ _ _ _ _ _ _ _ I) as [p [Hp HB]].
  assert (HQ := ip_grid _ _ _ _ _ _ _ _ _ _ I). assert (HC := ip_count _ _ _ _ _ _ _ _ _ _ I).
  destruct (ip_t0 _ _ _ _ _ _ _ _ _ _ I) as [S0 V0]. destruct (ip_period _ _ _ _ _ _ _ _ _ _ I) as [SP VP].
  assert (HP := ip_pos _ _ _ _ _ _ _ _ _ _ I).
  assert (Hz : exists z, planet_count np tv = Ok z /\ Z.of_nat n = Z.max 1 z).
  { unfold counted in HC. unfold planet_count. destruct np as [z|]; [exists z; split; [reflexivity|exact HC]|].
    destruct tv as [q|]; [|contradiction]. exists (Z.of_nat q). split; [reflexivity|lia]. }
  destruct Hz as [z [Hz Hn]]. unfold interpolated_light_curve. rewrite Hz. cbn [rbind].
  rewrite (proj1 HT). cbn [rbind]. rewrite (entries_ok _ _ _ HT). cbn [rbind].
  destruct (Z.leb_spec z 1) as [L|L].
  - assert (n = 1%nat) by lia. subst n. cbn [Nat.leb] in S0, SP. unfold scalar_of.
    rewrite S0, SP. cbn [rbind].
    assert (A0 : aget t0 ix0 = Fin (T0 O)) by (apply (V0 ix0); exact Nat.lt_0_1).
    assert (AP : aget period ix0 = Fin (P O)) by (apply (VP ix0); exact Nat.lt_0_1).
    rewrite A0, AP.
    rewrite (folded_value (T0 O) (P O) Q (HP O ltac:(lia)) HQ p base f O _ HB ltac:(lia)). cbn [rbind].
    apply expanded_table. rewrite map_map. reflexivity.
  - assert (n2 : Nat.leb n 1 = false) by (apply Nat.leb_gt; lia). rewrite n2 in S0, SP.
    destruct S0 as [d0 [L0 S0]]. destruct SP as [dP [LP SP]].
    replace (Z.to_nat z) with n by lia.
    rewrite (map_res_ok _ (fun j => map (fun m => Fin (fold_value (T0 j) (P j) Q (f j) (ts m))) (seq 0 N))).
    { cbn [rbind]. eexists. split; [reflexivity|]. apply stacked_table. reflexivity. }
    intros j Hj. apply in_seq in Hj. unfold tix. rewrite S0, SP.
    replace (Nat.ltb j d0) with true by (symmetry; apply Nat.ltb_lt; lia).
    replace (Nat.ltb j dP) with true by (symmetry; apply Nat.ltb_lt; lia). cbn [rbind].
    rewrite (V0 (fun _ => j)), (VP (fun _ => j)) by lia.
    rewrite (folded_value (T0 j) (P j) Q (HP j ltac:(lia)) HQ p base f j _ HB ltac:(lia)).
    rewrite map_map. reflexivity.
Qed.

(** ** the value is that of the cubic through four points *)
Lemma interpolates : forall n base Q np tv t0 period f T0 P N t ts,
  interpolating n base Q np tv t0 period f T0 P -> observed N t ts ->
  exists Y v, interpolated_light_curve base Q np tv t0 period t = Ok Y /\ light_table n N Y v /\
    forall m j, (m < N)%nat -> (j < n)%nat ->
      exists ph, phase (T0 j) (P j) (ts m) ph /\
        four_point (fun s => f j (T0 j + s)) (P j / IZR (Q + 1)) ph (v m j).
Proof.
  intros n base Q np tv t0 period f T0 P N t ts I HT.
  destruct (interpolated_value _ _ _ _ _ _ _ _ _ _ _ _ _ I HT) as [Y [HY TY]].
  exists Y, (fun m j => fold_value (T0 j) (P j) Q (f j) (ts m)). split; [exact HY|]. split; [exact TY|].
  intros m j Hm Hj. exists (Rmodulo (ts m - T0 j) (P j)).
  assert (HP := ip_pos _ _ _ _ _ _ _ _ _ _ I j Hj). assert (HQ := ip_grid _ _ _ _ _ _ _ _ _ _ I).
  split; [apply fold_phase; exact HP|]. apply (fold_four (T0 j) (P j) Q HP HQ).
Qed.

Lemma phase_unique t0 P t p q : 0 < P -> phase t0 P t p -> phase t0 P t q -> p = q.
Proof.
  intros HP [Rp [z Ez]] [Rq [w Ew]].
  assert (E : IZR (z - w) * P = q - p) by (rewrite minus_IZR; lra).
  assert (z - w = 0)%Z; [|assert (z = w) by lia; subst w; lra].
  assert (IZR (z - w) < 1).
  { apply Rmult_lt_reg_r with P; [exact HP|]. lra. }
  assert (-1 < IZR (z - w)).
  { apply Rmult_lt_reg_r with P; [exact HP|]. lra. }
  assert ((z - w) < 1)%Z by (apply lt_IZR; assumption).
  assert (-1 < (z - w))%Z by (apply lt_IZR; assumption). lia.
Qed.

(** ** properties of the four point rule *)
Lemma cubic_unique a0 a1 a2 a3 b0 b1 b2 b3 c h : h <> 0 ->
  (forall k, In k [-1; 0; 1; 2] -> cubic a0 a1 a2 a3 ((c + k) * h) = cubic b0 b1 b2 b3 ((c + k) * h)) ->
  forall s, cubic a0 a1 a2 a3 s = cubic b0 b1 b2 b3 s.
Proof.
  intros Hh H s.
  assert (H0 := H (-1) ltac:(left; reflexivity)). assert (H1 := H 0 ltac:(right; left; reflexivity)).
  assert (H2 := H 1 ltac:(right; right; left; reflexivity)). assert (H3 := H 2 ltac:(right; right; right; left; reflexivity)).
  clear H. unfold cubic in *.
  set (x := s / h - c). replace s with ((c + x) * h) by (unfold x; field; exact Hh). clearbody x. clear s.
  (* Lagrange: both sides are the same combination of the four values *)
  assert (L : forall a0 a1 a2 a3, a0 + a1 * ((c + x) * h) + a2 * ((c + x) * h * ((c + x) * h)) + a3 * ((c + x) * h * ((c + x) * h) * ((c + x) * h))
    = (- x * (x - 1) * (x - 2) / 6) * (a0 + a1 * ((c + -1) * h) + a2 * ((c + -1) * h * ((c + -1) * h)) + a3 * ((c + -1) * h * ((c + -1) * h) * ((c + -1) * h)))
    + ((x + 1) * (x - 1) * (x - 2) / 2) * (a0 + a1 * ((c + 0) * h) + a2 * ((c + 0) * h * ((c + 0) * h)) + a3 * ((c + 0) * h * ((c + 0) * h) * ((c + 0) * h)))
    + (- (x + 1) * x * (x - 2) / 2) * (a0 + a1 * ((c + 1) * h) + a2 * ((c + 1) * h * ((c + 1) * h)) + a3 * ((c + 1) * h * ((c + 1) * h) * ((c + 1) * h)))
    + ((x + 1) * x * (x - 1) / 6) * (a0 + a1 * ((c + 2) * h) + a2 * ((c + 2) * h * ((c + 2) * h)) + a3 * ((c + 2) * h * ((c + 2) * h) * ((c + 2) * h)))).
  { intros. field. }
  rewrite (L a0), (L b0), H0, H1, H2, H3. reflexivity.
Qed.
Lemma four_lagrange g h ph v : 0 < h -> four_point g h ph v ->
  exists (i : nat) x, 0 <= x < 1 /\ ph = (INR i + x) * h /\
    v = (- x * (x - 1) * (x - 2) / 6) * g ((INR i + -1) * h) + ((x + 1) * (x - 1) * (x - 2) / 2) * g ((INR i + 0) * h)
      + (- (x + 1) * x * (x - 2) / 2) * g ((INR i + 1) * h) + ((x + 1) * x * (x - 1) / 6) * g ((INR i + 2) * h).
Proof.
  intros Hh (i & a0 & a1 & a2 & a3 & HI & HK & ->). exists i, (ph / h - INR i).
  assert (E : ph = ph / h * h) by (field; lra).
  assert (HX : 0 <= ph / h - INR i < 1).
  { split.
    { apply Rmult_le_reg_r with h; [exact Hh|]. rewrite Rmult_0_l, Rmult_minus_distr_r, <- E. lra. }
    { apply Rmult_lt_reg_r with h; [exact Hh|]. rewrite Rmult_minus_distr_r, <- E. lra. } }
  split; [exact HX|]. split; [field; lra|].
  rewrite <- !HK by (cbn; tauto). unfold cubic.
  set (x := ph / h - INR i). replace ph with ((INR i + x) * h) by (unfold x; field; lra). field.
Qed.
Lemma four_unique g h ph v w : 0 < h -> four_point g h ph v -> four_point g h ph w -> v = w.
Proof.
  intros Hh Hv Hw. destruct (four_lagrange _ _ _ _ Hh Hv) as (i & x & Hx & Ei & ->).
  destruct (four_lagrange _ _ _ _ Hh Hw) as (i' & x' & Hx' & Ei' & ->).
  assert (E : INR i + x = INR i' + x').
  { apply Rmult_eq_reg_r with h; [|lra]. rewrite <- Ei. exact Ei'. }
  assert (i = i').
  { destruct (Nat.lt_trichotomy i i') as [L|[L|L]]; [|exact L|].
    { apply le_INR in L. rewrite S_INR in L. lra. } { apply le_INR in L. rewrite S_INR in L. lra. } }
  subst i'. assert (x = x') by lra. subst x'. reflexivity.
Qed.
Lemma four_grid g h ph v (i : nat) : 0 < h -> four_point g h ph v -> ph = INR i * h -> v = g ph.
Proof.
  intros Hh Hv Ep. destruct (four_lagrange _ _ _ _ Hh Hv) as (j & x & Hx & Ej & ->).
  assert (E : INR j + x = INR i). { apply Rmult_eq_reg_r with h; [|lra]. rewrite <- Ej. exact Ep. }
  assert (i = j).
  { destruct (Nat.lt_trichotomy i j) as [L|[L|L]]; [|exact L|].
    { apply le_INR in L. rewrite S_INR in L. lra. } { apply le_INR in L. rewrite S_INR in L. lra. } }
  subst j. assert (x = 0) by lra. subst x. rewrite Ep.
  replace ((INR i + 0) * h) with (INR i * h) by ring. field.
Qed.
Lemma four_exact g h ph v c0 c1 c2 c3 : 0 < h -> four_point g h ph v ->
  (forall s, Rabs (s - ph) <= 2 * h -> g s = cubic c0 c1 c2 c3 s) -> v = g ph.
Proof.
  intros Hh Hv HG. destruct (four_lagrange _ _ _ _ Hh Hv) as (j & x & Hx & Ej & ->).
  rewrite (HG ph) by (rewrite Rminus_eq_0, Rabs_R0; lra).
  assert (A : forall k, -1 <= k <= 2 -> g ((INR j + k) * h) = cubic c0 c1 c2 c3 ((INR j + k) * h)).
  { intros k Hk. apply HG. rewrite Ej. replace ((INR j + k) * h - (INR j + x) * h) with ((k - x) * h) by ring.
    rewrite Rabs_mult, (Rabs_pos_eq h) by lra. apply Rmult_le_compat_r; [lra|]. apply Rabs_le. lra. }
  rewrite !A by lra. rewrite Ej. unfold cubic. field.
Qed.
Lemma four_error g h ph v L : 0 < h -> 0 <= L -> four_point g h ph v ->
  (forall s, Rabs (s - ph) <= 2 * h -> Rabs (g s - g ph) <= L * Rabs (s - ph)) -> Rabs (v - g ph) <= 3 / 4 * L * h.
Proof.
  intros Hh HL Hv HG. destruct (four_lagrange _ _ _ _ Hh Hv) as (j & x & Hx & Ej & ->).
  assert (A : forall k, -1 <= k <= 2 -> Rabs (g ((INR j + k) * h) - g ph) <= L * (Rabs (k - x) * h)).
  { intros k Hk. assert (E : (INR j + k) * h - ph = (k - x) * h) by (rewrite Ej; ring).
    assert (Ea : Rabs ((INR j + k) * h - ph) = Rabs (k - x) * h) by (rewrite E, Rabs_mult, (Rabs_pos_eq h) by lra; reflexivity).
    rewrite <- Ea. apply HG. rewrite Ea. apply Rmult_le_compat_r; [lra|]. apply Rabs_le. lra. }
  assert (A0 := A (-1) ltac:(lra)). assert (A1 := A 0 ltac:(lra)). assert (A2 := A 1 ltac:(lra)). assert (A3 := A 2 ltac:(lra)).
  rewrite (Rabs_left1 (-1 - x)) in A0 by lra. rewrite (Rabs_left1 (0 - x)) in A1 by lra.
  rewrite (Rabs_pos_eq (1 - x)) in A2 by lra. rewrite (Rabs_pos_eq (2 - x)) in A3 by lra.
  set (d0 := g ((INR j + -1) * h) - g ph) in *. set (d1 := g ((INR j + 0) * h) - g ph) in *.
  set (d2 := g ((INR j + 1) * h) - g ph) in *. set (d3 := g ((INR j + 2) * h) - g ph) in *.
  set (w0 := - x * (x - 1) * (x - 2) / 6). set (w1 := (x + 1) * (x - 1) * (x - 2) / 2).
  set (w2 := - (x + 1) * x * (x - 2) / 2). set (w3 := (x + 1) * x * (x - 1) / 6).
  assert (W : w0 * g ((INR j + -1) * h) + w1 * g ((INR j + 0) * h) + w2 * g ((INR j + 1) * h) + w3 * g ((INR j + 2) * h) - g ph
    = w0 * d0 + w1 * d1 + w2 * d2 + w3 * d3).
  { unfold w0, w1, w2, w3, d0, d1, d2, d3. field. }
  rewrite W. clear W.
  assert (P1 : 0 <= (1 - x) * (2 - x)) by (apply Rmult_le_pos; lra).
  assert (P2 : 0 <= x * (1 - x)) by (apply Rmult_le_pos; lra).
  assert (N0 : w0 <= 0). { unfold w0. replace (- x * (x - 1) * (x - 2) / 6) with (- (x * ((1 - x) * (2 - x))) / 6) by field.
    assert (0 <= x * ((1 - x) * (2 - x))) by (apply Rmult_le_pos; lra). lra. }
  assert (N1 : 0 <= w1). { unfold w1. replace ((x + 1) * (x - 1) * (x - 2) / 2) with ((x + 1) * ((1 - x) * (2 - x)) / 2) by field.
    assert (0 <= (x + 1) * ((1 - x) * (2 - x))) by (apply Rmult_le_pos; lra). lra. }
  assert (N2 : 0 <= w2). { unfold w2. replace (- (x + 1) * x * (x - 2) / 2) with ((x + 1) * (x * (2 - x)) / 2) by field.
    assert (0 <= x * (2 - x)) by (apply Rmult_le_pos; lra). assert (0 <= (x + 1) * (x * (2 - x))) by (apply Rmult_le_pos; lra). lra. }
  assert (N3 : w3 <= 0). { unfold w3. replace ((x + 1) * x * (x - 1) / 6) with (- ((x + 1) * (x * (1 - x))) / 6) by field.
    assert (0 <= (x + 1) * (x * (1 - x))) by (apply Rmult_le_pos; lra). lra. }
  assert (T : forall w d B, Rabs d <= B -> Rabs (w * d) <= Rabs w * B).
  { intros w d B H. rewrite Rabs_mult. apply Rmult_le_compat_l; [apply Rabs_pos|exact H]. }
  apply (T w0) in A0. apply (T w1) in A1. apply (T w2) in A2. apply (T w3) in A3.
  rewrite (Rabs_left1 w0) in A0 by exact N0. rewrite (Rabs_pos_eq w1) in A1 by exact N1.
  rewrite (Rabs_pos_eq w2) in A2 by exact N2. rewrite (Rabs_left1 w3) in A3 by exact N3.
  assert (S3 := Rabs_triang (w0 * d0 + w1 * d1 + w2 * d2) (w3 * d3)).
  assert (S2 := Rabs_triang (w0 * d0 + w1 * d1) (w2 * d2)). assert (S1 := Rabs_triang (w0 * d0) (w1 * d1)).
  assert (B : - w0 * (L * (- (-1 - x) * h)) + w1 * (L * (- (0 - x) * h)) + w2 * (L * ((1 - x) * h)) + - w3 * (L * ((2 - x) * h))
    = 4 / 3 * (x * (1 - x)) * (2 + x * (1 - x)) * (L * h)).
  { unfold w0, w1, w2, w3. field. }
  assert (U : x * (1 - x) <= 1 / 4) by (clear; assert (0 <= (x - 1 / 2) * (x - 1 / 2)) by apply Rle_0_sqr; lra).
  assert (U2 : 4 / 3 * (x * (1 - x)) * (2 + x * (1 - x)) <= 3 / 4).
  { clear - U P2. set (u := x * (1 - x)) in *. clearbody u. nra. }
  assert (LH : 0 <= L * h) by (apply Rmult_le_pos; lra).
  assert (V := Rmult_le_compat_r _ _ _ LH U2). lra.
Qed.
