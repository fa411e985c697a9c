(** * Lemmas about the interpolated light curve *)
From Coq Require Import Reals List Bool Arith ZArith Lra Lia FunctionalExtensionality.
From Verif Require Import Num CoreOps Inst CoreFlux M_units M_kepler M_tensor M_simple M_ttv M_limbdark M_interpolated
  Spec_orbit Spec_array Spec_light Spec_interp L_fl L_real.
Import ListNotations.
Open Scope R_scope.

Lemma nth_error_map_seq {A} (f : nat -> A) L i : (i < L)%nat -> nth_error (map f (seq 0 L)) i = Some (f i).
Proof.
  intro H. rewrite nth_error_map.
  rewrite (nth_error_nth' (seq 0 L) O) by (rewrite seq_length; exact H).
  rewrite seq_nth by exact H. reflexivity.
Qed.
Lemma take_map_seq {A} (f : nat -> A) L (i : nat) : (i < L)%nat -> take (map f (seq 0 L)) (Z.of_nat i) = Ok (f i).
Proof.
  intro H. unfold take. cbv zeta.
  replace (Z.of_nat i <? 0)%Z with false by (symmetry; apply Z.ltb_ge; lia).
  replace (Z.of_nat i <? 0)%Z with false by (symmetry; apply Z.ltb_ge; lia).
  rewrite Nat2Z.id, nth_error_map_seq by exact H. reflexivity.
Qed.
Lemma seq_skip a L k : skipn k (seq a L) = seq (a + k) (L - k).
Proof.
  revert a k. induction L as [|L IH]; intros a k.
  { rewrite skipn_nil. reflexivity. }
  destruct k; cbn [skipn seq]. { rewrite Nat.add_0_r, Nat.sub_0_r. reflexivity. }
  rewrite IH. cbn [Nat.sub]. f_equal. lia.
Qed.
Lemma seq_first a L k : (k <= L)%nat -> firstn k (seq a L) = seq a k.
Proof.
  revert a k. induction L as [|L IH]; intros a k H; destruct k; try reflexivity; try lia.
  cbn [seq firstn]. rewrite IH by lia. reflexivity.
Qed.
Lemma seq_shift_map {A} (f : nat -> A) k L : map f (seq k L) = map (fun i => f (i + k)%nat) (seq 0 L).
Proof.
  revert f k. induction L as [|L IH]; intros f k; [reflexivity|].
  cbn [seq map]. f_equal. rewrite (IH f (S k)), (IH (fun i => f (i + k)%nat) 1%nat).
  apply map_ext. intro i. f_equal. lia.
Qed.
Lemma firstn_map_seq {A} (f : nat -> A) k L M : (k <= L)%nat -> (M + k <= L)%nat ->
  firstn M (skipn k (map f (seq 0 L))) = map (fun i => f (i + k)%nat) (seq 0 M).
Proof.
  intros H1 H2. rewrite skipn_map, seq_skip, firstn_map, seq_first by lia. apply seq_shift_map.
Qed.
Lemma combine_map {A B C} (f : A -> B) (g : A -> C) l : combine (map f l) (map g l) = map (fun a => (f a, g a)) l.
Proof. induction l; cbn; [reflexivity|]. rewrite IHl. reflexivity. Qed.
Lemma map4_map {A C D} (f : A -> A -> A -> A -> C) (g0 g1 g2 g3 : D -> A) l :
  map4 f (map g0 l) (map g1 l) (map g2 l) (map g3 l) = map (fun i => f (g0 i) (g1 i) (g2 i) (g3 i)) l.
Proof. unfold map4. rewrite !combine_map, map_map. reflexivity. Qed.

(** one interpolated value *)
Definition fit4 (y0 y1 y2 y3 s : R) : R :=
  y1 + (- y0 / 3 - 1 / 2 * y1 + y2 - y3 / 6) * s + (1 / 2 * (y0 + y2) - y1) * (s * s)
     + 1 / 2 * (y1 - y2 + (y3 - y0) / 3) * (s * (s * s)).

Lemma interp_at_value (xs ys : nat -> R) L (i : nat) xmin dx x :
  dx <> 0 -> (i + 3 < L)%nat -> Zfloor ((x - xmin) / dx) = Z.of_nat i ->
  interp_at (map xs (seq 0 L)) (map (fun m => Fin (ys m)) (seq 0 L)) (Fin xmin) (Fin dx) (Fin x)
  = Ok (Fin (fit4 (ys i) (ys (i + 1)%nat) (ys (i + 2)%nat) (ys (i + 3)%nat) ((x - xs (i + 1)%nat) / dx))).
Proof.
  intros Hd HL HF. unfold interp_at. cbv zeta.
  rewrite map_length, seq_length.
  change (firstn (L - 3) (map (fun m => Fin (ys m)) (seq 0 L))) with
    (firstn (L - 3) (skipn 0 (map (fun m => Fin (ys m)) (seq 0 L)))).
  replace (skipn 3 (map (fun m => Fin (ys m)) (seq 0 L))) with
    (firstn (L - 3) (skipn 3 (map (fun m => Fin (ys m)) (seq 0 L))))
    by (apply firstn_all2; rewrite skipn_length, map_length, seq_length; lia).
  rewrite !firstn_map_seq by lia. rewrite !map4_map.
  fn. rewrite (fdiv_fin _ _ Hd). cbn [position_of rbind].
  replace (x + - xmin) with (x - xmin) by ring. rewrite HF.
  replace (Z.of_nat i + 1)%Z with (Z.of_nat (i + 1)) by lia.
  rewrite (take_map_seq xs) by lia. cbn [rbind].
  rewrite !take_map_seq by lia. cbn [rbind].
  unfold nlit, NumF. rewrite !fdiv_fin by lra. cbn [fadd fmul fneg fsub].
  rewrite Nat.add_0_r. unfold fit4. do 2 f_equal.
  replace (0.5) with (1 / 2) by lra. field. exact Hd.
Qed.

Lemma map_res_ok {A C} (f : A -> res C) (g : A -> C) l :
  (forall a, In a l -> f a = Ok (g a)) -> map_res f l = Ok (map g l).
Proof.
  induction l as [|a l IH]; intro H; [reflexivity|].
  cbn [map_res map]. rewrite (H a) by (left; reflexivity). cbn [rbind].
  rewrite IH by (intros b Hb; apply H; right; exact Hb). reflexivity.
Qed.

Lemma Rmodulo_range x P : 0 < P -> 0 <= Rmodulo x P < P.
Proof.
  intro HP. unfold Rmodulo, Rfloor. generalize (Zfloor_spec (x / P)). set (z := IZR _). intros [H1 H2].
  assert (E : x = P * (x / P)) by (field; lra).
  split.
  { apply (Rmult_le_compat_l P) in H1; [|lra]. rewrite <- E in H1. lra. }
  { apply (Rmult_lt_compat_l P) in H2; [|lra]. rewrite <- E in H2. lra. }
Qed.

Section Folded.
Variables (t0 P : R) (Q : Z).
Hypothesis HP : 0 < P.
Hypothesis HQ : (0 <= Q)%Z.
Definition step := P / IZR (Q + 1).
Definition node (k : nat) : R := t0 - step + INR k * step.
Definition cell (t : R) : nat := Z.to_nat (Zfloor (Rmodulo (t - t0) P / step)).
Definition fold_value (f : R -> R) (t : R) : R :=
  let i := cell t in
  fit4 (f (node i)) (f (node (i + 1))) (f (node (i + 2))) (f (node (i + 3))) (Rmodulo (t - t0) P / step - INR i).

Lemma HQ1 : 0 < IZR (Q + 1). Proof. apply IZR_lt. lia. Qed.
Lemma step_pos : 0 < step. Proof. unfold step. apply Rdiv_lt_0_compat; [exact HP|exact HQ1]. Qed.
Lemma step_P : P = IZR (Q + 1) * step. Proof. unfold step. field. assert (H := HQ1). lra. Qed.
Lemma cell_spec t :
  Zfloor (Rmodulo (t - t0) P / step) = Z.of_nat (cell t) /\ (Z.of_nat (cell t) <= Q)%Z /\
  INR (cell t) * step <= Rmodulo (t - t0) P < (INR (cell t) + 1) * step.
Proof.
  assert (R := Rmodulo_range (t - t0) P HP). assert (S := step_pos).
  set (ph := Rmodulo (t - t0) P) in *.
  assert (F := Zfloor_spec (ph / step)).
  assert (D : ph = ph / step * step) by (field; lra).
  assert (N0 : 0 <= ph / step) by (apply Rmult_le_pos; [lra|left; apply Rinv_0_lt_compat; exact S]).
  assert (N1 : ph / step < IZR (Q + 1)).
  { apply Rmult_lt_reg_r with step; [exact S|]. rewrite <- D, <- step_P. lra. }
  assert (Z0 : (0 <= Zfloor (ph / step))%Z).
  { assert (-1 < Zfloor (ph / step))%Z; [|lia]. apply lt_IZR. lra. }
  assert (Z1 : (Zfloor (ph / step) < Q + 1)%Z) by (apply lt_IZR; lra).
  unfold cell. fold ph. rewrite Z2Nat.id by exact Z0. split; [reflexivity|]. split; [lia|].
  rewrite INR_IZR_INZ, Z2Nat.id by exact Z0.
  destruct F as [F1 F2]. split.
  { apply (Rmult_le_compat_r step) in F1; [|lra]. rewrite <- D in F1. exact F1. }
  { apply (Rmult_lt_compat_r step) in F2; [|lra]. rewrite <- D in F2. exact F2. }
Qed.

Lemma arange_nodes :
  arange (nsub (Fin t0) (Fin step))%num (nadd (nadd (Fin t0) (Fin P)) (nmul (nlit 2.5) (Fin step)))%num (Fin step)
  = Ok (map node (seq 0 (Z.to_nat Q + 5))).
Proof.
  assert (S := step_pos). fn. cbn [arange]. unfold Reqb. destruct (Req_EM_T step 0) as [E|E]; [lra|].
  replace ((t0 + P + 2.5 * step - (t0 + - step)) / step) with (IZR (Q + 1) + 3.5).
  2: { rewrite step_P at 1. replace 2.5 with (5/2) by lra. replace 3.5 with (7/2) by lra. field. exact E. }
  assert (C : Zceil (IZR (Q + 1) + 3.5) = (Q + 5)%Z).
  { assert (H := Zceil_spec (IZR (Q + 1) + 3.5)). rewrite plus_IZR in H.
    assert (H1 : (Zceil (IZR Q + 1 + 3.5) < Q + 6)%Z) by (apply lt_IZR; rewrite plus_IZR; lra).
    assert (H2 : (Q + 4 < Zceil (IZR Q + 1 + 3.5))%Z) by (apply lt_IZR; rewrite plus_IZR; lra).
    rewrite plus_IZR. lia. }
  rewrite C. replace (Z.to_nat (Q + 5)) with (Z.to_nat Q + 5)%nat by lia. reflexivity.
Qed.

Lemma column_table n L Y (f : nat -> nat -> R) j : light_table n L Y f -> (j < n)%nat ->
  column j Y = Ok (map (fun m => Fin (f m j)) (seq 0 L)).
Proof.
  intros [HS HV] Hj. unfold column. rewrite HS.
  replace (Nat.ltb j n) with true by (symmetry; apply Nat.ltb_lt; exact Hj).
  f_equal. apply map_ext_in. intros m Hm. apply in_seq in Hm.
  rewrite <- (HV m j) by lia. reflexivity.
Qed.

Lemma folded_value n base (f : nat -> R -> R) j ts : pointwise n base f -> (j < n)%nat ->
  folded j Q base (Fin t0) (Fin P) (map Fin ts) = Ok (map (fun t => Fin (fold_value (f j) t)) ts).
Proof.
  intros HB Hj. unfold folded. cbv zeta. assert (S := step_pos).
  assert (E : ((Fin t0 + Fin P - Fin t0) / nlit (IZR (Q + 1)))%num = Fin step).
  { fn. rewrite fdiv_fin by (assert (H := HQ1); lra). unfold step. do 2 f_equal. ring. }
  rewrite E. unfold interp. rewrite arange_nodes. cbn [rbind].
  destruct (HB (map node (seq 0 (Z.to_nat Q + 5)))) as [Y [HY HT]].
  rewrite HY. cbn [rbind]. rewrite (column_table _ _ _ _ j HT Hj). cbn [rbind].
  rewrite map_length, seq_length, map_map.
  assert (EY : map (fun m => Fin (f j (nth m (map node (seq 0 (Z.to_nat Q + 5))) 0))) (seq 0 (Z.to_nat Q + 5))
             = map (fun m => Fin ((fun m => f j (node m)) m)) (seq 0 (Z.to_nat Q + 5))).
  { apply map_ext_in. intros m Hm. apply in_seq in Hm. do 2 f_equal.
    rewrite (nth_indep _ 0 (node 0)) by (rewrite map_length, seq_length; lia).
    rewrite (map_nth node), seq_nth by lia. reflexivity. }
  rewrite EY. clear EY.
  induction ts as [|t ts IH]; [reflexivity|].
  cbn [map map_res].
  assert (V : interp_at (map node (seq 0 (Z.to_nat Q + 5))) (map (fun m => Fin (f j (node m))) (seq 0 (Z.to_nat Q + 5)))
                (Fin t0) (Fin step) (nmod (Fin t - Fin t0) (Fin P) + Fin t0)%num = Ok (Fin (fold_value (f j) t))).
  { fn. rewrite fmod_fin by lra. cbn [fadd].
    replace (t + - t0) with (t - t0) by ring.
    destruct (cell_spec t) as [C1 [C2 C3]].
    rewrite (interp_at_value node (fun m => f j (node m)) _ (cell t)).
    { unfold fold_value. cbv zeta. do 2 f_equal. f_equal. unfold node. rewrite plus_INR. cbn [INR]. field. lra. }
    { lra. } { lia. }
    { replace (Rmodulo (t - t0) P + t0 - t0) with (Rmodulo (t - t0) P) by ring. exact C1. } }
  rewrite V. cbn [rbind]. rewrite IH. reflexivity.
Qed.

(** the interpolated number is the value of the cubic through four points *)
Lemma fold_four f t : four_point (fun ph => f (t0 + ph)) step (Rmodulo (t - t0) P) (fold_value f t).
Proof.
  destruct (cell_spec t) as [_ [_ C3]]. assert (S := step_pos).
  unfold fold_value. cbv zeta. set (i := cell t) in *. set (ph := Rmodulo (t - t0) P) in *.
  set (y0 := f (node i)). set (y1 := f (node (i + 1))). set (y2 := f (node (i + 2))). set (y3 := f (node (i + 3))).
  set (b1 := - y0 / 3 - 1 / 2 * y1 + y2 - y3 / 6). set (b2 := 1 / 2 * (y0 + y2) - y1).
  set (b3 := 1 / 2 * (y1 - y2 + (y3 - y0) / 3)).
  set (c := INR i).
  exists i, (y1 - b1 * c + b2 * c * c - b3 * c * c * c), ((b1 - 2 * b2 * c + 3 * b3 * c * c) / step),
    ((b2 - 3 * b3 * c) / (step * step)), (b3 / (step * step * step)).
  split; [exact C3|].
  assert (EV : forall s, cubic (y1 - b1 * c + b2 * c * c - b3 * c * c * c) ((b1 - 2 * b2 * c + 3 * b3 * c * c) / step)
    ((b2 - 3 * b3 * c) / (step * step)) (b3 / (step * step * step)) s = fit4 y0 y1 y2 y3 (s / step - c)).
  { intro s. unfold cubic, fit4. fold b1 b2 b3. field. lra. }
  split.
  { intros k Hk. rewrite EV. fold c.
    replace ((c + k) * step / step - c) with k by (field; lra).
    assert (NE : forall q, (t0 + (c + (INR q - 1)) * step) = node (i + q)).
    { intro q. unfold node, c. rewrite plus_INR. ring. }
    cbn in Hk. destruct Hk as [<-|[<-|[<-|[<-|[]]]]].
    { replace (-1) with (INR 0 - 1) by (cbn; lra). rewrite NE, Nat.add_0_r. fold y0. unfold fit4. cbn [INR]. field. }
    { replace 0 with (INR 1 - 1) by (cbn; lra). rewrite NE. fold y1. unfold fit4. cbn [INR]. field. }
    { replace 1 with (INR 2 - 1) at 2 by (cbn; lra). rewrite NE. fold y2. unfold fit4. field. }
    { replace 2 with (INR 3 - 1) at 2 by (cbn; lra). rewrite NE. fold y3. unfold fit4. field. } }
  rewrite EV. reflexivity.
Qed.
Lemma fold_phase t : phase t0 P t (Rmodulo (t - t0) P).
Proof.
  split; [apply Rmodulo_range; exact HP|]. exists (Zfloor ((t - t0) / P)).
  unfold Rmodulo, Rfloor. ring.
Qed.
End Folded.
