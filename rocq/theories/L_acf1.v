(** * Powers of two, sums of cosines *)
From Coq Require Import Reals List Bool Arith ZArith Lia Lra.
From Verif Require Import Num CoreOps Inst M_acf Spec_acf.
Import ListNotations.
Open Scope R_scope.

Lemma npt_loop_spec fuel : forall k n v, (forall j, (0 <= j < k)%Z -> (2 ^ j < n)%Z) -> (0 <= k)%Z -> npt_loop fuel (2 ^ k) n = Ok v ->
  exists m, (0 <= m)%Z /\ v = (2 ^ m)%Z /\ (n <= v)%Z /\ forall j, (0 <= j < m)%Z -> (2 ^ j < n)%Z.
Proof.
  induction fuel as [|fuel IH]; intros k n v B K; cbn [npt_loop]; [discriminate|]. destruct (Z.ltb_spec (2 ^ k) n) as [H|H].
  - rewrite Z.shiftl_mul_pow2 by lia. replace (2 ^ k * 2 ^ 1)%Z with (2 ^ (k + 1))%Z by (rewrite Z.pow_add_r by lia; reflexivity).
    apply IH; [|lia]. intros j Hj. destruct (Z.eq_dec j k) as [->|N]; [exact H|apply B; lia].
  - intro E. inversion E; subst. exists k. split; [exact K|]. split; [reflexivity|]. split; [exact H|exact B].
Qed.
Lemma npt_loop_total fuel : forall k n, (0 <= k)%Z -> (n - k <= Z.of_nat fuel)%Z -> exists v, npt_loop (S fuel) (2 ^ k) n = Ok v.
Proof.
  induction fuel as [|fuel IH]; intros k n K H; cbn [npt_loop]; destruct (Z.ltb_spec (2 ^ k) n) as [L|L]; try (eexists; reflexivity).
  - exfalso. assert (G := Z.pow_gt_lin_r 2 k). lia.
  - rewrite Z.shiftl_mul_pow2 by lia. replace (2 ^ k * 2 ^ 1)%Z with (2 ^ (k + 1))%Z by (rewrite Z.pow_add_r by lia; reflexivity). apply IH; lia.
Qed.
Theorem npt_ok : forall n, exists m N, (0 <= m)%Z /\ (n <= 2 ^ m)%Z /\ (forall j, (0 <= j)%Z -> (n <= 2 ^ j)%Z -> (m <= j)%Z) /\
  forall fuel, (fuel >= N)%nat -> next_pow_two fuel n = Ok (2 ^ m)%Z.
Proof.
  intro n. assert (T : forall N, (N >= S (Z.to_nat n))%nat -> exists v, next_pow_two N n = Ok v).
  { intros N H. destruct N as [|N]; [lia|]. apply (npt_loop_total N 0 n); lia. }
  assert (U : forall N v, next_pow_two N n = Ok v -> exists m, (0 <= m)%Z /\ v = (2 ^ m)%Z /\ (n <= v)%Z /\ forall j, (0 <= j < m)%Z -> (2 ^ j < n)%Z).
  { intros N v. apply (npt_loop_spec N 0 n v); intros; lia. }
  destruct (T (S (Z.to_nat n)) (le_n _)) as (v & E). destruct (U _ _ E) as (m & M & -> & LE & B). exists m, (S (Z.to_nat n)).
  split; [exact M|]. split; [exact LE|]. assert (MIN : forall j, (0 <= j)%Z -> (n <= 2 ^ j)%Z -> (m <= j)%Z).
  { intros j J HJ. destruct (Z.le_gt_cases m j) as [|G]; [assumption|]. specialize (B j ltac:(lia)). lia. }
  split; [exact MIN|]. intros fuel HF. destruct (T fuel HF) as (v & E'). rewrite E'. destruct (U _ _ E') as (m' & M' & -> & LE' & B').
  assert (m <= m')%Z by (apply MIN; assumption). assert (~ (m < m')%Z) by (intro; specialize (B' m ltac:(lia)); lia). assert (m = m') by lia. subst. reflexivity.
Qed.
(** the value is right whenever the loop has stopped *)
Theorem npt_sound : forall fuel n v, next_pow_two fuel n = Ok v -> exists m, (0 <= m)%Z /\ v = (2 ^ m)%Z /\ (n <= v)%Z /\ forall j, (0 <= j)%Z -> (n <= 2 ^ j)%Z -> (v <= 2 ^ j)%Z.
Proof.
  intros fuel n v E. destruct (npt_loop_spec fuel 0 n v) as (m & M & -> & LE & B); [intros; lia|lia|exact E|]. exists m. split; [exact M|]. split; [reflexivity|]. split; [exact LE|].
  intros j J H. apply Z.pow_le_mono_r; [lia|]. destruct (Z.le_gt_cases m j) as [|G]; [assumption|]. specialize (B j ltac:(lia)). lia.
Qed.
Lemma npt_len len : exists n, next_pow_two (S len) (Z.of_nat len) = Ok (Z.of_nat n) /\ (len <= n)%nat /\ (1 <= n)%nat.
Proof.
  destruct (npt_loop_total len 0 (Z.of_nat len)) as (v & E); [lia|lia|]. change (npt_loop (S len) (2 ^ 0) (Z.of_nat len)) with (next_pow_two (S len) (Z.of_nat len)) in E.
  destruct (npt_sound _ _ _ E) as (m & M & EV & LE & _). assert (0 < v)%Z by (rewrite EV; apply Z.pow_pos_nonneg; lia). exists (Z.to_nat v). rewrite Z2Nat.id by lia. split; [exact E|]. split; lia.
Qed.

(** sums *)
Lemma sb_ext n f g : (forall i, (i < n)%nat -> f i = g i) -> sum_below n f = sum_below n g.
Proof. induction n as [|n IH]; intro H; cbn; [reflexivity|]. rewrite IH by (intros; apply H; lia). rewrite H by lia. reflexivity. Qed.
Lemma sb_plus n f g : sum_below n (fun i => f i + g i) = sum_below n f + sum_below n g.
Proof. induction n as [|n IH]; cbn; [lra|]. rewrite IH. lra. Qed.
Lemma sb_scal n c f : sum_below n (fun i => c * f i) = c * sum_below n f.
Proof. induction n as [|n IH]; cbn; [lra|]. rewrite IH. lra. Qed.
Lemma sb_zero n : sum_below n (fun _ => 0) = 0. Proof. induction n as [|n IH]; cbn; lra. Qed.
Lemma sb_swap n m f : sum_below n (fun i => sum_below m (fun j => f i j)) = sum_below m (fun j => sum_below n (fun i => f i j)).
Proof. induction n as [|n IH]; cbn; [symmetry; apply sb_zero|]. rewrite IH, <- sb_plus. reflexivity. Qed.
Lemma sb_nonneg n f : (forall i, (i < n)%nat -> 0 <= f i) -> 0 <= sum_below n f.
Proof. induction n as [|n IH]; intro H; cbn; [lra|]. assert (0 <= f n) by (apply H; lia). assert (0 <= sum_below n f) by (apply IH; intros; apply H; lia). lra. Qed.
Lemma sb_null n f : (forall i, (i < n)%nat -> 0 <= f i) -> sum_below n f = 0 -> forall i, (i < n)%nat -> f i = 0.
Proof.
  induction n as [|n IH]; intros H Z i Hi; [lia|]. cbn in Z. assert (0 <= f n) by (apply H; lia). assert (0 <= sum_below n f) by (apply sb_nonneg; intros; apply H; lia).
  destruct (Nat.eq_dec i n) as [->|N]; [lra|]. apply IH; [intros; apply H; lia|lra|lia].
Qed.
Lemma sb_prod n m f g : sum_below n f * sum_below m g = sum_below n (fun i => sum_below m (fun j => f i * g j)).
Proof. rewrite Rmult_comm, <- sb_scal. apply sb_ext. intros i _. rewrite Rmult_comm, <- sb_scal. reflexivity. Qed.
Lemma sb_single n a f : (a < n)%nat -> (forall i, (i < n)%nat -> i <> a -> f i = 0) -> sum_below n f = f a.
Proof.
  induction n as [|n IH]; intros A H; [lia|]. cbn. destruct (Nat.eq_dec a n) as [->|N].
  - rewrite (sb_ext n f (fun _ => 0)) by (intros; apply H; lia). rewrite sb_zero. lra.
  - rewrite IH by (try lia; intros; apply H; lia). rewrite (H n) by lia. lra.
Qed.
Lemma sb_cut n m f : (m <= n)%nat -> (forall i, (m <= i < n)%nat -> f i = 0) -> sum_below n f = sum_below m f.
Proof. intros L. induction L as [|n L IH]; intro H; [reflexivity|]. cbn. rewrite IH by (intros; apply H; lia). rewrite H by lia. lra. Qed.
Lemma sb_map_seq n (f : nat -> R) : rsum (map f (seq 0 n)) = sum_below n f.
Proof.
  induction n as [|n IH]; [reflexivity|]. rewrite seq_S, map_app. cbn [sum_below map]. rewrite <- IH. cbn [Nat.add].
  generalize (map f (seq 0 n)). induction l as [|a l IHl]; cbn; [lra|]. unfold rsum in IHl. rewrite IHl. cbn. lra.
Qed.
Lemma rsum_nth l : rsum l = sum_below (length l) (fun i => nth i l 0).
Proof.
  rewrite <- sb_map_seq. f_equal. induction l as [|a l IH]; [reflexivity|]. cbn [length seq map nth]. f_equal. rewrite <- seq_shift, map_map. exact IH.
Qed.
Lemma csum_map {A} (f : A -> cx) l : csum (map f l) = (rsum (map (fun a => fst (f a)) l), rsum (map (fun a => snd (f a)) l)).
Proof. induction l as [|a l IH]; [reflexivity|]. cbn. unfold csum in IH. rewrite IH. reflexivity. Qed.

(** sum of cosines over a full period *)
Lemma cos_telescope n t : 2 * sin (t / 2) * sum_below n (fun k => cos (INR k * t)) = sin ((INR n - 1 / 2) * t) + sin (t / 2).
Proof.
  induction n as [|n IH]; cbn [sum_below].
  - cbn [INR]. replace ((0 - 1 / 2) * t) with (- (t / 2)) by field. rewrite sin_neg. ring.
  - rewrite Rmult_plus_distr_l, IH, S_INR. replace ((INR n - 1 / 2) * t) with (INR n * t - t / 2) by field. replace ((INR n + 1 - 1 / 2) * t) with (INR n * t + t / 2) by field.
    rewrite sin_minus, sin_plus. ring.
Qed.
Lemma cos_sum_zero m (d : Z) : (0 < Z.abs d < Z.of_nat m)%Z -> sum_below m (fun k => cos (INR k * (2 * PI * IZR d / INR m))) = 0.
Proof.
  intro H. assert (MP : 0 < INR m) by (apply lt_0_INR; lia). set (t := 2 * PI * IZR d / INR m).
  assert (E := cos_telescope m t). assert (SZ : sin ((INR m - 1 / 2) * t) = - sin (t / 2)).
  { replace ((INR m - 1 / 2) * t) with (- (t / 2) + 2 * IZR d * PI) by (unfold t; field; lra). rewrite <- sin_neg.
    destruct (Z.le_gt_cases 0 d) as [P|N].
    - rewrite <- (Z2Nat.id d P), <- INR_IZR_INZ. apply sin_period.
    - rewrite <- (sin_period (- (t / 2) + 2 * IZR d * PI) (Z.to_nat (- d))). f_equal. rewrite INR_IZR_INZ, Z2Nat.id by lia. rewrite opp_IZR. ring. }
  rewrite SZ in E. assert (NZ : sin (t / 2) <> 0).
  { assert (T2 : t / 2 = PI * (IZR d / INR m)) by (unfold t; field; lra). rewrite T2. assert (PP := PI_RGT_0).
    destruct (Z.lt_total 0 d) as [P|[P|P]]; [|lia|].
    - apply Rgt_not_eq. apply sin_gt_0.
      + apply Rmult_lt_0_compat; [lra|]. apply Rdiv_lt_0_compat; [apply (IZR_lt 0); lia|exact MP].
      + rewrite <- (Rmult_1_r PI) at 2. apply Rmult_lt_compat_l; [lra|]. apply (Rmult_lt_reg_r (INR m)); [exact MP|]. unfold Rdiv. rewrite Rmult_assoc, Rinv_l, Rmult_1_r, Rmult_1_l by lra. rewrite INR_IZR_INZ. apply IZR_lt. lia.
    - replace (PI * (IZR d / INR m)) with (- (PI * (IZR (- d) / INR m))) by (rewrite opp_IZR; field; lra). rewrite sin_neg. apply Ropp_neq_0_compat. apply Rgt_not_eq. apply sin_gt_0.
      + apply Rmult_lt_0_compat; [lra|]. apply Rdiv_lt_0_compat; [apply (IZR_lt 0); lia|exact MP].
      + rewrite <- (Rmult_1_r PI) at 2. apply Rmult_lt_compat_l; [lra|]. apply (Rmult_lt_reg_r (INR m)); [exact MP|]. unfold Rdiv. rewrite Rmult_assoc, Rinv_l, Rmult_1_r, Rmult_1_l by lra. rewrite INR_IZR_INZ. apply IZR_lt. lia. }
  assert (E2 : 2 * sin (t / 2) * sum_below m (fun k => cos (INR k * t)) = 0) by lra. apply Rmult_integral in E2. destruct E2 as [E2|E2]; [exfalso; apply NZ; lra|exact E2].
Qed.
Lemma sb_one n : sum_below n (fun _ => 1) = INR n. Proof. induction n as [|n IH]; [reflexivity|]. cbn [sum_below]. rewrite IH, S_INR. reflexivity. Qed.
Lemma cos_sum_delta m (d : Z) : (Z.abs d < Z.of_nat m)%Z -> sum_below m (fun k => cos (INR k * (2 * PI * IZR d / INR m))) = if Z.eqb d 0 then INR m else 0.
Proof.
  intro H. destruct (Z.eqb_spec d 0) as [->|N]; [|apply cos_sum_zero; lia]. assert (MP : 0 < INR m) by (apply lt_0_INR; lia). rewrite (sb_ext m _ (fun _ => 1)); [apply sb_one|]. intros i _. replace (INR i * (2 * PI * 0 / INR m)) with 0 by (field; lra). apply cos_0.
Qed.
