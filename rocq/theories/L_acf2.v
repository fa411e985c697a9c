(** * The Fourier computation of the autocorrelation *)
From Coq Require Import Reals List Bool Arith ZArith Lia Lra.
From Verif Require Import Num CoreOps Inst M_acf Spec_acf L_acf1.
Import ListNotations.
Open Scope R_scope.

Lemma nth_map_seq0 {A} (f : nat -> A) n k d : (k < n)%nat -> nth k (map f (seq 0 n)) d = f k.
Proof. intro H. rewrite (nth_indep _ d (f 0%nat)) by (rewrite map_length, seq_length; exact H). rewrite map_nth, seq_nth by exact H. reflexivity. Qed.
Lemma nth_map_in {A B} (g : A -> B) l d d' k : (k < length l)%nat -> nth k (map g l) d = g (nth k l d').
Proof. intro H. rewrite (nth_indep _ d (g d')) by (rewrite map_length; exact H). apply map_nth. Qed.
Lemma nth_cx vs j : nth j (map (fun v : R => (v, 0)) vs) (0, 0) = (nth j vs 0, 0).
Proof. apply (map_nth (fun v : R => (v, 0)) vs 0 j). Qed.

Section F.
Variables (vs : list R) (m : nat).
Hypothesis LN : (2 * length vs <= m)%nat.
Hypothesis MP : (0 < m)%nat.
Let w (j : nat) := nth j vs 0.
Let th := 2 * PI / INR m.
Let N := length vs.
Definition Ck (k : nat) := sum_below N (fun j => w j * cos (th * INR j * INR k)).
Definition Sk (k : nat) := sum_below N (fun j => w j * sin (th * INR j * INR k)).
Lemma w_zero j : (N <= j)%nat -> w j = 0. Proof. intro H. apply nth_overflow. exact H. Qed.
Lemma fft_nth k : (k < m)%nat -> nth k (fft (map (fun v : R => (v, 0)) vs) m) (0, 0) = (Ck k, - Sk k).
Proof.
  intro K. unfold fft. rewrite nth_map_seq0 by exact K. rewrite csum_map. cbn [fst snd]. rewrite !sb_map_seq. assert (0 < INR m) by (apply lt_0_INR; exact MP). f_equal.
  - rewrite (sb_cut m N); [|unfold N; lia|]. 2:{ intros i Hi. rewrite nth_cx. cbn [cmul fst snd cis]. fold (w i). rewrite w_zero by lia. ring. }
    apply sb_ext. intros j _. rewrite nth_cx. cbn [cmul fst snd cis]. rewrite cos_neg. fold (w j). replace (2 * PI * INR j * INR k / INR m) with (th * INR j * INR k) by (unfold th; field; lra). ring.
  - rewrite (sb_cut m N); [|unfold N; lia|]. 2:{ intros i Hi. rewrite nth_cx. cbn [cmul fst snd cis]. fold (w i). rewrite w_zero by lia. ring. }
    unfold Sk. replace (- sum_below N (fun j => w j * sin (th * INR j * INR k))) with (-1 * sum_below N (fun j => w j * sin (th * INR j * INR k))) by ring. rewrite <- sb_scal. apply sb_ext. intros j _. rewrite nth_cx. cbn [cmul fst snd cis]. rewrite sin_neg. fold (w j). replace (2 * PI * INR j * INR k / INR m) with (th * INR j * INR k) by (unfold th; field; lra). ring.
Qed.
Lemma power_k k : Ck k * Ck k + Sk k * Sk k = sum_below N (fun j => sum_below N (fun l => w j * w l * cos (th * (INR j - INR l) * INR k))).
Proof.
  unfold Ck, Sk. rewrite !sb_prod, <- sb_plus. apply sb_ext. intros j _. rewrite <- sb_plus. apply sb_ext. intros l _.
  replace (th * (INR j - INR l) * INR k) with (th * INR j * INR k - th * INR l * INR k) by ring. rewrite cos_minus. ring.
Qed.
Lemma half_cos a b : cos a * cos b = / 2 * cos (a + b) + / 2 * cos (a - b).
Proof. rewrite cos_plus, cos_minus. field. Qed.
Lemma inner_sum j l t : (j < N)%nat -> (l < N)%nat -> (t < N)%nat ->
  sum_below m (fun k => cos (th * (INR j - INR l) * INR k) * cos (th * INR t * INR k)) =
  INR m / 2 * ((if Nat.eqb l (j + t) then 1 else 0) + (if Nat.eqb j (l + t) then 1 else 0)).
Proof.
  intros J L T. assert (0 < INR m) by (apply lt_0_INR; exact MP).
  rewrite (sb_ext m _ (fun k => / 2 * cos (INR k * (2 * PI * IZR (Z.of_nat j - Z.of_nat l + Z.of_nat t) / INR m)) + / 2 * cos (INR k * (2 * PI * IZR (Z.of_nat j - Z.of_nat l - Z.of_nat t) / INR m)))).
  - rewrite sb_plus, !sb_scal. unfold N in *. rewrite !cos_sum_delta by lia.
    assert (E1 : Z.eqb (Z.of_nat j - Z.of_nat l + Z.of_nat t) 0 = Nat.eqb l (j + t)) by (destruct (Z.eqb_spec (Z.of_nat j - Z.of_nat l + Z.of_nat t) 0), (Nat.eqb_spec l (j + t)); (reflexivity || lia)).
    assert (E2 : Z.eqb (Z.of_nat j - Z.of_nat l - Z.of_nat t) 0 = Nat.eqb j (l + t)) by (destruct (Z.eqb_spec (Z.of_nat j - Z.of_nat l - Z.of_nat t) 0), (Nat.eqb_spec j (l + t)); (reflexivity || lia)).
    rewrite E1, E2. destruct (Nat.eqb l (j + t)), (Nat.eqb j (l + t)); field.
  - intros k _. rewrite half_cos. f_equal; f_equal; f_equal; rewrite ?plus_IZR, ?minus_IZR, ?plus_IZR, <- !INR_IZR_INZ; unfold th; field; lra.
Qed.
Lemma pick_sum t : sum_below N (fun j => sum_below N (fun l => w j * w l * (if Nat.eqb l (j + t) then 1 else 0))) = sum_below (N - t) (fun j => w j * w (j + t)%nat).
Proof.
  rewrite (sb_cut N (N - t)); [|lia|].
  - apply sb_ext. intros j Hj. rewrite (sb_single N (j + t)); [rewrite Nat.eqb_refl; ring|lia|]. intros i _ Hn. destruct (Nat.eqb_spec i (j + t)); [contradiction|ring].
  - intros j Hj. rewrite (sb_ext N _ (fun _ => 0)); [apply sb_zero|]. intros l Hl. destruct (Nat.eqb_spec l (j + t)); [lia|ring].
Qed.
Lemma acf_sum t : (t < N)%nat -> sum_below m (fun k => (Ck k * Ck k + Sk k * Sk k) * cos (th * INR t * INR k)) = INR m * sum_below (N - t) (fun j => w j * w (j + t)%nat).
Proof.
  intro T. rewrite (sb_ext m _ (fun k => sum_below N (fun j => sum_below N (fun l => w j * w l * (cos (th * (INR j - INR l) * INR k) * cos (th * INR t * INR k)))))).
  - rewrite sb_swap. rewrite (sb_ext N _ (fun j => INR m / 2 * (sum_below N (fun l => w j * w l * (if Nat.eqb l (j + t) then 1 else 0)) + sum_below N (fun l => w j * w l * (if Nat.eqb j (l + t) then 1 else 0))))).
    + rewrite sb_scal, sb_plus, pick_sum. rewrite (sb_swap N N (fun j l => w j * w l * (if Nat.eqb j (l + t) then 1 else 0))).
      rewrite (sb_ext N (fun j => sum_below N (fun i => w i * w j * (if Nat.eqb i (j + t) then 1 else 0))) (fun j => sum_below N (fun l => w j * w l * (if Nat.eqb l (j + t) then 1 else 0)))) by (intros; apply sb_ext; intros; ring).
      rewrite pick_sum. field.
    + intros j J. rewrite sb_swap, <- sb_plus, <- sb_scal. apply sb_ext. intros l L. rewrite sb_scal, inner_sum by assumption. ring.
  - intros k _. rewrite power_k. rewrite Rmult_comm, <- sb_scal. apply sb_ext. intros j _. rewrite <- sb_scal. apply sb_ext. intros l _. ring.
Qed.
Lemma acf_nth t : (t < N)%nat ->
  fst (nth t (ifft (map (fun z => cmul z (conjugate z)) (fft (map (fun v : R => (v, 0)) vs) m))) (0, 0)) = sum_below (N - t) (fun j => w j * w (j + t)%nat).
Proof.
  intro T. assert (P : 0 < INR m) by (apply lt_0_INR; exact MP). unfold ifft. assert (LF : length (map (fun z => cmul z (conjugate z)) (fft (map (fun v : R => (v, 0)) vs) m)) = m) by (unfold fft; rewrite !map_length, seq_length; reflexivity).
  rewrite LF. rewrite nth_map_seq0 by (unfold N in *; lia). unfold cmul at 1. cbn [fst snd]. rewrite csum_map. cbn [fst snd]. rewrite sb_map_seq.
  rewrite (sb_ext m _ (fun k => (Ck k * Ck k + Sk k * Sk k) * cos (th * INR t * INR k))).
  - rewrite acf_sum by exact T. field. lra.
  - intros k K. rewrite (nth_map_in (fun z => cmul z (conjugate z)) _ (0, 0) (0, 0)) by (rewrite map_length in LF; rewrite LF; exact K). rewrite fft_nth by exact K.
    unfold cmul, conjugate, cis. cbn [fst snd]. replace (2 * PI * INR t * INR k / INR m) with (th * INR t * INR k) by (unfold th; field; lra). ring.
Qed.
End F.

Lemma sb_cauchy n f g : (sum_below n (fun i => f i * g i)) ^ 2 <= sum_below n (fun i => f i ^ 2) * sum_below n (fun i => g i ^ 2).
Proof.
  induction n as [|n IH]; cbn [sum_below]; [lra|]. set (a := sum_below n (fun i => f i * g i)) in *. set (b := sum_below n (fun i => f i ^ 2)) in *. set (c := sum_below n (fun i => g i ^ 2)) in *.
  assert (B : 0 <= b) by (apply sb_nonneg; intros; nra). assert (C : 0 <= c) by (apply sb_nonneg; intros; nra).
  set (x := f n). set (y := g n). assert (2 * a * (x * y) <= b * y ^ 2 + c * x ^ 2); [|nra].
  destruct (Rle_dec 0 (a * (x * y))) as [S|S].
  - assert (0 <= b * y ^ 2) by (apply Rmult_le_pos; [exact B|nra]). assert (0 <= c * x ^ 2) by (apply Rmult_le_pos; [exact C|nra]).
    apply Rsqr_incr_0_var; [|lra]. unfold Rsqr. assert (K : (a * (x * y)) ^ 2 <= (b * y ^ 2) * (c * x ^ 2)). { replace ((a * (x * y)) ^ 2) with (a ^ 2 * (x ^ 2 * y ^ 2)) by ring. replace ((b * y ^ 2) * (c * x ^ 2)) with (b * c * (x ^ 2 * y ^ 2)) by ring. apply Rmult_le_compat_r; [nra|exact IH]. }
    assert (Q : 0 <= (b * y ^ 2 - c * x ^ 2) ^ 2) by (rewrite <- Rsqr_pow2; apply Rle_0_sqr). replace (2 * a * (x * y)) with (2 * (a * (x * y))) by ring. revert K Q. generalize (b * y ^ 2), (c * x ^ 2), (a * (x * y)). intros B' C' T' K Q. nra.
  - assert (0 <= b * y ^ 2) by (apply Rmult_le_pos; [exact B|nra]). assert (0 <= c * x ^ 2) by (apply Rmult_le_pos; [exact C|nra]). lra.
Qed.
Lemma sb_le n f g : (forall i, (i < n)%nat -> f i <= g i) -> sum_below n f <= sum_below n g.
Proof. induction n as [|n IH]; intro H; cbn; [lra|]. assert (f n <= g n) by (apply H; lia). assert (sum_below n f <= sum_below n g) by (apply IH; intros; apply H; lia). lra. Qed.
Lemma sb_mono n m f : (n <= m)%nat -> (forall i, 0 <= f i) -> sum_below n f <= sum_below m f.
Proof. intros L H. induction L as [|m L IH]; [lra|]. cbn. specialize (H m). lra. Qed.
Lemma sb_shift n k f : (forall i, 0 <= f i) -> sum_below n (fun i => f (i + k)%nat) <= sum_below (n + k) f.
Proof.
  intro H. induction n as [|n IH]; [cbn; apply sb_nonneg; intros; apply H|]. cbn [sum_below Nat.add]. lra.
Qed.

Lemma acov0_nonneg xs : 0 <= acov xs 0.
Proof. unfold acov. apply sb_nonneg. intros i _. rewrite Nat.add_0_r. exact (Rle_0_sqr (nth i xs 0 - mean_of xs)). Qed.
Lemma acov0_zero xs : acov xs 0 = 0 -> constant xs.
Proof.
  intro H. exists (mean_of xs). intros x I. destruct (In_nth xs x 0 I) as (i & Hi & <-). unfold acov in H. rewrite Nat.sub_0_r in H.
  assert (NN : forall j, (j < length xs)%nat -> 0 <= (nth j xs 0 - mean_of xs) * (nth (j + 0) xs 0 - mean_of xs)) by (intros j _; rewrite Nat.add_0_r; exact (Rle_0_sqr _)).
  assert (Z := sb_null _ _ NN H i Hi). cbv beta in Z. rewrite Nat.add_0_r in Z. apply Rmult_integral in Z. lra.
Qed.
Lemma constant_mean xs c : xs <> [] -> (forall x, In x xs -> x = c) -> mean_of xs = c.
Proof.
  intros NE H. unfold mean_of. assert (0 < INR (length xs)) by (apply lt_0_INR; destruct xs; [contradiction|cbn; lia]).
  rewrite (sb_ext _ _ (fun _ => c * 1)) by (intros i Hi; rewrite (H (nth i xs 0)) by (apply nth_In; exact Hi); ring). rewrite sb_scal, sb_one. field. lra.
Qed.
Lemma constant_acov xs k : constant xs -> acov xs k = 0.
Proof.
  intros (c & H). unfold acov. destruct xs as [|x xs']; [reflexivity|]. set (xs := x :: xs') in *. rewrite (constant_mean xs c) by (try discriminate; exact H).
  rewrite (sb_ext _ _ (fun _ => 0)); [apply sb_zero|]. intros i Hi. rewrite (H (nth i xs 0)) by (apply nth_In; lia). ring.
Qed.
Lemma acov_bound xs k : Rabs (acov xs k) <= acov xs 0.
Proof.
  set (d := fun i => nth i xs 0 - mean_of xs). assert (C : acov xs k ^ 2 <= sum_below (length xs - k) (fun i => d i ^ 2) * sum_below (length xs - k) (fun i => d (i + k)%nat ^ 2)) by exact (sb_cauchy (length xs - k) d (fun i => d (i + k)%nat)).
  destruct (le_lt_dec k (length xs)) as [L|L].
  2:{ unfold acov. replace (length xs - k)%nat with 0%nat by lia. cbn [sum_below]. rewrite Rabs_R0. apply acov0_nonneg. }
  assert (Z : acov xs 0 = sum_below (length xs) (fun i => d i ^ 2)). { unfold acov. rewrite Nat.sub_0_r. apply sb_ext. intros i _. rewrite Nat.add_0_r. unfold d. ring. }
  assert (B1 : sum_below (length xs - k) (fun i => d i ^ 2) <= acov xs 0). { rewrite Z. apply sb_mono; [lia|]. intro i. rewrite <- Rsqr_pow2. apply Rle_0_sqr. }
  assert (B2 : sum_below (length xs - k) (fun i => d (i + k)%nat ^ 2) <= acov xs 0).
  { rewrite Z. replace (length xs) with (length xs - k + k)%nat at 2 by lia. apply (sb_shift (length xs - k) k (fun i => d i ^ 2)). intro i. rewrite <- Rsqr_pow2. apply Rle_0_sqr. }
  assert (N1 : 0 <= sum_below (length xs - k) (fun i => d i ^ 2)) by (apply sb_nonneg; intros; rewrite <- Rsqr_pow2; apply Rle_0_sqr).
  assert (N2 : 0 <= sum_below (length xs - k) (fun i => d (i + k)%nat ^ 2)) by (apply sb_nonneg; intros; rewrite <- Rsqr_pow2; apply Rle_0_sqr).
  assert (A0 := acov0_nonneg xs). apply Rsqr_incr_0_var; [|exact A0]. rewrite <- Rsqr_abs. unfold Rsqr. assert (P := Rmult_le_compat _ _ _ _ N1 N2 B1 B2). lra.
Qed.

Theorem acf_series xs : xs <> [] -> autocorr_function (series xs) = Ok (map (fun k => fdiv (Fin (acov xs k)) (Fin (acov xs 0))) (seq 0 (length xs))).
Proof.
  intro NE. assert (LP : (0 < length xs)%nat) by (destruct xs; [contradiction|cbn; lia]). unfold autocorr_function, series. cbn [nd_shape nd_data].
  destruct (npt_len (length xs)) as (n & E & LN & NP). rewrite E. cbn [rbind]. rewrite Nat2Z.id.
  assert (MU : rsum xs / INR (length xs) = mean_of xs) by (unfold mean_of; rewrite rsum_nth; reflexivity). rewrite MU.
  set (vs := map (fun v => v - mean_of xs) xs). replace (map (fun v => (v - mean_of xs, 0)) xs) with (map (fun v : R => (v, 0)) vs) by (unfold vs; rewrite map_map; reflexivity).
  assert (LV : length vs = length xs) by (unfold vs; apply map_length).
  set (I := ifft _). assert (LI : length I = (2 * n)%nat) by (unfold I, ifft, fft; repeat (rewrite ?map_length, ?seq_length); reflexivity).
  assert (EA : map fst (firstn (length xs) I) = map (acov xs) (seq 0 (length xs))).
  { apply (nth_ext _ _ 0 0).
    - rewrite !map_length, firstn_length, seq_length. lia.
    - intros t Ht. rewrite map_length, firstn_length in Ht. rewrite nth_map_seq0 by lia. rewrite (nth_map_in fst _ 0 (0, 0)) by (rewrite firstn_length; lia).
      assert (HT : (t < length xs)%nat) by lia.
      assert (FN : nth t (firstn (length xs) I) (0, 0) = nth t I (0, 0)) by (rewrite <- (firstn_skipn (length xs) I) at 2; rewrite app_nth1; [reflexivity|rewrite firstn_length; lia]).
      refine (eq_trans (f_equal fst FN) _). unfold I. refine (eq_trans (acf_nth vs (2 * n) ltac:(lia) ltac:(lia) t ltac:(lia)) _). rewrite LV. unfold acov. apply sb_ext. intros j Hj.
      unfold vs. rewrite !(nth_indep (map _ xs) 0 (0 - mean_of xs)) by (rewrite map_length; lia). rewrite !(map_nth (fun v => v - mean_of xs)). reflexivity. }
  rewrite EA. destruct (length xs) as [|p] eqn:LE; [lia|]. cbn [seq map]. rewrite map_map. reflexivity.
Qed.
Theorem acf_ok xs : ~ constant xs -> autocorr_function (series xs) = Ok (map (fun k => Fin (acov xs k / acov xs 0)) (seq 0 (length xs))) /\
  0 < acov xs 0 /\ forall k, Rabs (acov xs k / acov xs 0) <= 1.
Proof.
  intro NC. assert (P : 0 < acov xs 0). { assert (H := acov0_nonneg xs). destruct (Req_dec (acov xs 0) 0) as [Z|]; [|lra]. exfalso. apply NC, acov0_zero, Z. }
  split; [|split; [exact P|]].
  - rewrite acf_series. 2:{ intros ->. apply NC. exists 0. intros ? []. } f_equal. apply map_ext. intro k. unfold fdiv. unfold Reqb. destruct (Req_EM_T (acov xs 0) 0); [lra|reflexivity].
  - intro k. assert (B := acov_bound xs k). unfold Rdiv. rewrite Rabs_mult, Rabs_inv, (Rabs_pos_eq (acov xs 0)) by lra. apply (Rmult_le_reg_r (acov xs 0)); [exact P|]. rewrite Rmult_assoc, Rinv_l by lra. lra.
Qed.
Theorem acf_constant xs : xs <> [] -> constant xs -> autocorr_function (series xs) = Ok (map (fun _ => NaN) xs).
Proof.
  intros NE C. rewrite acf_series by exact NE. f_equal. rewrite (map_ext _ (fun _ : nat => NaN)).
  2:{ intro k. rewrite !constant_acov by exact C. unfold fdiv, Reqb. destruct (Req_EM_T 0 0); [reflexivity|contradiction]. }
  clear. generalize 0%nat. induction xs as [|x xs IH]; intro a; [reflexivity|]. cbn. f_equal. apply IH.
Qed.
Theorem acf_shapes a : well_formed a -> (nd_shape a = [] -> autocorr_function a = Ok [NaN]) /\ (nd_shape a = [0%nat] -> autocorr_function a = Err IndexErr) /\
  ((2 <= length (nd_shape a))%nat -> autocorr_function a = Err ValueError).
Proof.
  intro W. destruct a as [s d]. unfold well_formed in W. cbn [nd_shape nd_data] in *. split; [|split].
  - intros ->. cbn in W. destruct d as [|x [|]]; try discriminate. apply (acf_constant [x]); [discriminate|]. exists x. intros y [<-|[]]. reflexivity.
  - intros ->. cbn in W. destruct d; [|discriminate]. reflexivity.
  - destruct s as [|? [|? s]]; cbn [length]; intro; try lia. reflexivity.
Qed.
