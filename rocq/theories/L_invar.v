(** * The amplitudes do not depend on how the observations are written down *)
From Coq Require Import Reals Lra Lia List Bool Arith ZArith Permutation.
From Verif Require Import Num CoreOps Inst CoreLin M_units M_kepler M_ttv M_rv Spec_orbit Spec_rv Spec_invar L_rv1 L_rv2 L_rv3 L_rv5 L_rv6 L_rv7.
Import ListNotations.
Open Scope R_scope.
Local Notation length := List.length.

Lemma sumf_perm {A} (f : A -> R) l l' : Permutation l l' -> sumf f l = sumf f l'.
Proof. induction 1; cbn; lra. Qed.
Lemma chi2_sum f : forall ts vs sg, chi2 f ts vs sg = sumf (fun o => ((snd (fst o) - f (fst (fst o))) / snd o) ^ 2) (observations ts vs sg).
Proof. unfold observations. induction ts as [|t ts IH]; intros [|v vs] [|s sg]; cbn [chi2 combine sumf fst snd]; try reflexivity. rewrite IH. reflexivity. Qed.
Lemma obs_times : forall ts vs sg, length vs = length ts -> length sg = length ts -> map (fun o : R * R * R => fst (fst o)) (observations ts vs sg) = ts.
Proof. unfold observations. induction ts as [|t ts IH]; intros [|v vs] [|s sg] A B; cbn in *; try discriminate; [reflexivity|]. f_equal. apply IH; lia. Qed.
Lemma obs_sigma : forall ts vs sg, length vs = length ts -> length sg = length ts -> map (fun o : R * R * R => snd o) (observations ts vs sg) = sg.
Proof. unfold observations. induction ts as [|t ts IH]; intros [|v vs] [|s sg] A B; cbn in *; try discriminate; [reflexivity|]. f_equal. apply IH; lia. Qed.
Lemma chi2_half f h m : forall ts vs sg, (forall t, m t = (f t + h t) / 2) ->
  chi2 m ts vs sg = (chi2 f ts vs sg + chi2 h ts vs sg) / 2 - / 4 * sumf (fun o => ((f (fst (fst o)) - h (fst (fst o))) / snd o) ^ 2) (observations ts vs sg).
Proof.
  intros ts vs sg H. rewrite !chi2_sum. induction (observations ts vs sg) as [|o l IH]; cbn [sumf]; [lra|]. rewrite IH, H. unfold Rdiv. ring_simplify. lra.
Qed.
Lemma half_zero (g : R -> R) ts vs sg : length vs = length ts -> length sg = length ts -> (forall s, In s sg -> s <> 0) ->
  sumf (fun o => (g (fst (fst o)) / snd o) ^ 2) (observations ts vs sg) <= 0 -> forall t, In t ts -> g t = 0.
Proof.
  intros Lv Ls Hs H t It. assert (Z : sumf (fun o : R * R * R => (g (fst (fst o)) / snd o) ^ 2) (observations ts vs sg) = 0).
  { apply Rle_antisym; [exact H|]. apply sumf_nonneg. intros a _. rewrite <- Rsqr_pow2. apply Rle_0_sqr. }
  rewrite <- (obs_times ts vs sg Lv Ls) in It. apply in_map_iff in It. destruct It as (o & <- & Io).
  assert (Q := sumf_null _ _ ltac:(intros a _; rewrite <- Rsqr_pow2; apply Rle_0_sqr) Z o Io). cbv beta in Q.
  assert (So : snd o <> 0). { apply Hs. rewrite <- (obs_sigma ts vs sg Lv Ls). apply (in_map (fun o : R * R * R => snd o)). exact Io. }
  assert (Q' : g (fst (fst o)) / snd o = 0) by (destruct (Req_dec (g (fst (fst o)) / snd o) 0) as [e|e]; [exact e|exfalso; exact (pow_nonzero _ 2 e Q)]).
  apply (Rmult_eq_reg_r (/ snd o)); [|apply Rinv_neq_0_compat; exact So]. rewrite Rmult_0_l. exact Q'.
Qed.
(** ** the models are linear in their parameters *)
Lemma transit_lin a b P : forall T0 K K' c c' t, length K = length P -> length K' = length P ->
  transit_model P T0 (lincomb a b K K') (a * c + b * c') t = a * transit_model P T0 K c t + b * transit_model P T0 K' c' t.
Proof.
  induction P as [|p P IH]; intros [|t0 T0] [|x K] [|x' K'] c c' t L L'; cbn in *; try discriminate; try lra.
  unfold lincomb in IH. rewrite IH by lia. unfold transit_signal. ring.
Qed.
Lemma phase_lin a b P : forall A A' B B' c c' t, length A = length P -> length A' = length P -> length B = length P -> length B' = length P ->
  phase_model P (lincomb a b A A') (lincomb a b B B') (a * c + b * c') t = a * phase_model P A B c t + b * phase_model P A' B' c' t.
Proof.
  induction P as [|p P IH]; intros [|x A] [|x' A'] [|y B] [|y' B'] c c' t L1 L2 L3 L4; cbn in *; try discriminate; try lra.
  unfold lincomb in IH. rewrite IH by lia. ring.
Qed.
Lemma transit_shift d P : forall T0 K c t, transit_model P (map (fun z => z + d) T0) K c (t + d) = transit_model P T0 K c t.
Proof.
  induction P as [|p P IH]; intros [|t0 T0] [|x K] c t; cbn; try reflexivity. rewrite IH. unfold transit_signal. replace (t + d - (t0 + d)) with (t - t0) by ring. reflexivity.
Qed.
(** the coefficients of the sinusoids for times d later *)
Fixpoint turned (d : R) (P A B : list R) : list R * list R :=
  match P, A, B with
  | p :: P, a :: A, b :: B => let w := 2 * PI * d / p in let (A', B') := turned d P A B in ((a * cos w - b * sin w) :: A', (a * sin w + b * cos w) :: B')
  | _, _, _ => ([], [])
  end.
Lemma turned_length d P : forall A B, length A = length P -> length B = length P -> length (fst (turned d P A B)) = length P /\ length (snd (turned d P A B)) = length P.
Proof.
  induction P as [|p P IH]; intros [|a A] [|b B] L1 L2; cbn in *; try discriminate; [split; reflexivity|]. destruct (IH A B ltac:(lia) ltac:(lia)). destruct (turned d P A B). cbn in *. lia.
Qed.
Lemma phase_shift d P : forall A B c t, length A = length P -> length B = length P -> List.Forall (fun p => p <> 0) P ->
  phase_model P A B c (t + d) = phase_model P (fst (turned d P A B)) (snd (turned d P A B)) c t.
Proof.
  induction P as [|p P IH]; intros [|a A] [|b B] c t L1 L2 NZ; cbn in *; try discriminate; [reflexivity|]. inversion NZ as [|? ? Hp NZ']; subst.
  rewrite (IH A B c t ltac:(lia) ltac:(lia) NZ'). destruct (turned d P A B) as [A' B']. cbn [fst snd].
  replace (2 * PI * (t + d) / p) with (2 * PI * t / p + 2 * PI * d / p) by (field; exact Hp). rewrite sin_plus, cos_plus. ring.
Qed.
Lemma turned_back d P : forall A B, length A = length P -> length B = length P -> List.Forall (fun p => p <> 0) P ->
  turned (- d) P (fst (turned d P A B)) (snd (turned d P A B)) = (A, B).
Proof.
  induction P as [|p P IH]; intros [|a A] [|b B] L1 L2 NZ; cbn in *; try discriminate; [reflexivity|]. inversion NZ as [|? ? Hp NZ']; subst.
  assert (Q := IH A B ltac:(lia) ltac:(lia) NZ'). destruct (turned d P A B) as [A' B']. cbn [fst snd turned] in *. rewrite Q.
  replace (2 * PI * - d / p) with (- (2 * PI * d / p)) by (field; exact Hp). rewrite cos_neg, sin_neg. set (w := 2 * PI * d / p).
  assert (C := sin2_cos2 w). unfold Rsqr in C. f_equal; f_equal.
  - transitivity (a * (sin w * sin w + cos w * cos w)); [ring|rewrite C; ring].
  - transitivity (b * (sin w * sin w + cos w * cos w)); [ring|rewrite C; ring].
Qed.
Lemma turned_amp d P : forall A B, length A = length P -> length B = length P ->
  amplitude_list (fst (turned d P A B)) (snd (turned d P A B)) = amplitude_list A B.
Proof.
  induction P as [|p P IH]; intros [|a A] [|b B] L1 L2; cbn in *; try discriminate; [reflexivity|].
  assert (Q := IH A B ltac:(lia) ltac:(lia)). destruct (turned d P A B) as [A' B']. cbn [fst snd] in *. unfold amplitude_list in *. cbn [combine map fst snd]. rewrite Q. f_equal. f_equal.
  set (w := 2 * PI * d / p). assert (C := sin2_cos2 w). unfold Rsqr in C. transitivity ((a * a + b * b) * (sin w * sin w + cos w * cos w)); [ring|rewrite C; ring].
Qed.
Lemma amp_scale g : forall A B, amplitude_list (map (Rmult g) A) (map (Rmult g) B) = map (Rmult (Rabs g)) (amplitude_list A B).
Proof.
  unfold amplitude_list. induction A as [|a A IH]; intros [|b B]; cbn [map combine]; try reflexivity. rewrite IH. f_equal. cbn [fst snd].
  replace ((g * a) ^ 2 + (g * b) ^ 2) with (Rsqr g * (a ^ 2 + b ^ 2)) by (unfold Rsqr; ring). rewrite sqrt_mult_alt by apply Rle_0_sqr. rewrite sqrt_Rsqr_abs. reflexivity.
Qed.
(** ** chi2 of rewritten data *)
Lemma rewritten_chi2 d g c a ts vs sg ts' vs' sg' f f' : rewritten d g c a ts vs sg ts' vs' sg' -> a <> 0 -> (forall s, In s sg -> s <> 0) -> length vs = length ts -> length sg = length ts ->
  (forall t, f' (t + d) = g * f t + c) -> chi2 f' ts' vs' sg' = (g / a) ^ 2 * chi2 f ts vs sg.
Proof.
  intros W Ha Hs Lv Ls H. rewrite !chi2_sum, (sumf_perm _ _ _ W), sumf_map, <- sumf_scal. apply sumf_ext. intros o Io. cbn [fst snd]. rewrite H.
  assert (So : snd o <> 0). { apply Hs. rewrite <- (obs_sigma ts vs sg Lv Ls). apply (in_map (fun o : R * R * R => snd o)). exact Io. }
  field. split; assumption.
Qed.
Lemma rewritten_times d g c a ts vs sg ts' vs' sg' : rewritten d g c a ts vs sg ts' vs' sg' -> length vs = length ts -> length sg = length ts -> length vs' = length ts' -> length sg' = length ts' ->
  Permutation ts' (map (fun t => t + d) ts).
Proof.
  intros W Lv Ls Lv' Ls'. apply (Permutation_map (fun o : R * R * R => fst (fst o))) in W. rewrite (obs_times ts' vs' sg' Lv' Ls') in W.
  rewrite map_map in W. cbn [fst snd] in W. rewrite <- (map_map (fun o : R * R * R => fst (fst o)) (fun t => t + d)) in W. rewrite (obs_times ts vs sg Lv Ls) in W. exact W.
Qed.
Lemma rv_lengths k x y yerr ts vs sg : rv_data k x y yerr ts vs sg -> length vs = length ts /\ length sg = length ts /\ forall s, In s sg -> s <> 0.
Proof.
  intros D. split; [exact (rv_len _ _ _ _ _ _ _ D)|]. destruct (rv_err _ _ _ _ _ _ _ D) as (e & _ & U). split; [|exact (uncertainties_nonzero _ _ _ U)].
  destruct e as [e|]; [apply (uncertainties_spread _ _ _ U)|]. cbn in U. rewrite U. apply repeat_length.
Qed.
Lemma map_scale_length g (l : list R) : length (map (Rmult g) l) = length l. Proof. apply map_length. Qed.
Lemma lincomb_half (K : list R) : forall K', length K = length K' -> (forall z, In z (lincomb 1 (-1) K K') -> z = 0) -> K = K'.
Proof.
  induction K as [|x K IH]; intros [|x' K'] L H; cbn in *; try discriminate; [reflexivity|]. f_equal; [|apply IH; [lia|]].
  - assert (Q := H _ (or_introl eq_refl)). cbn in Q. lra.
  - intros z Hz. apply H. right. exact Hz.
Qed.
Lemma transit_unique P T0 ts vs sg K c K' c' : length vs = length ts -> length sg = length ts -> (forall s, In s sg -> s <> 0) -> transit_identifiable P T0 ts -> length K = length P -> length K' = length P ->
  (forall K1 c1, length K1 = length P -> chi2 (transit_model P T0 K c) ts vs sg <= chi2 (transit_model P T0 K1 c1) ts vs sg) ->
  (forall K1 c1, length K1 = length P -> chi2 (transit_model P T0 K' c') ts vs sg <= chi2 (transit_model P T0 K1 c1) ts vs sg) -> K = K'.
Proof.
  intros Lv Ls Hs Id LK LK' M M'. apply lincomb_half; [lia|]. 
  assert (LL : length (lincomb (/ 2) (/ 2) K K') = length P) by (rewrite lincomb_length; lia).
  assert (Mid := chi2_half (transit_model P T0 K c) (transit_model P T0 K' c') (transit_model P T0 (lincomb (/ 2) (/ 2) K K') (/ 2 * c + / 2 * c')) ts vs sg ltac:(intro t; rewrite transit_lin by assumption; lra)).
  assert (A := M _ (/ 2 * c + / 2 * c') LL). assert (B := M' _ (/ 2 * c + / 2 * c') LL). assert (C := M K' c' LK'). assert (D := M' K c LK).
  assert (Z := half_zero (fun t => transit_model P T0 K c t - transit_model P T0 K' c' t) ts vs sg Lv Ls Hs ltac:(cbv beta; lra)). cbv beta in Z.
  apply (Id (lincomb 1 (-1) K K') (1 * c + -1 * c')); [rewrite lincomb_length; lia|]. intros t It. rewrite transit_lin by assumption. assert (Q := Z t It). lra.
Qed.
Lemma phase_unique P ts vs sg A B c A' B' c' : length vs = length ts -> length sg = length ts -> (forall s, In s sg -> s <> 0) -> phase_identifiable P ts ->
  length A = length P -> length B = length P -> length A' = length P -> length B' = length P ->
  (forall A1 B1 c1, length A1 = length P -> length B1 = length P -> chi2 (phase_model P A B c) ts vs sg <= chi2 (phase_model P A1 B1 c1) ts vs sg) ->
  (forall A1 B1 c1, length A1 = length P -> length B1 = length P -> chi2 (phase_model P A' B' c') ts vs sg <= chi2 (phase_model P A1 B1 c1) ts vs sg) -> A = A' /\ B = B'.
Proof.
  intros Lv Ls Hs Id LA LB LA' LB' M M'.
  assert (L1 : length (lincomb (/ 2) (/ 2) A A') = length P) by (rewrite lincomb_length; lia). assert (L2 : length (lincomb (/ 2) (/ 2) B B') = length P) by (rewrite lincomb_length; lia).
  assert (Mid := chi2_half (phase_model P A B c) (phase_model P A' B' c') (phase_model P (lincomb (/ 2) (/ 2) A A') (lincomb (/ 2) (/ 2) B B') (/ 2 * c + / 2 * c')) ts vs sg ltac:(intro t; rewrite phase_lin by assumption; lra)).
  assert (Q1 := M _ _ (/ 2 * c + / 2 * c') L1 L2). assert (Q2 := M' _ _ (/ 2 * c + / 2 * c') L1 L2). assert (Q3 := M A' B' c' LA' LB'). assert (Q4 := M' A B c LA LB).
  assert (Z := half_zero (fun t => phase_model P A B c t - phase_model P A' B' c' t) ts vs sg Lv Ls Hs ltac:(cbv beta; lra)). cbv beta in Z.
  destruct (Id (lincomb 1 (-1) A A') (lincomb 1 (-1) B B') (1 * c + -1 * c')) as (_ & ZA & ZB).
  - rewrite lincomb_length; lia.
  - rewrite lincomb_length; lia.
  - intros t It. rewrite phase_lin by assumption. assert (Q := Z t It). lra.
  - split; apply lincomb_half; try lia; assumption.
Qed.
Lemma scale_lin g K : lincomb g 0 K K = map (Rmult g) K.
Proof. unfold lincomb. induction K as [|x K IH]; cbn; [reflexivity|]. rewrite IH. f_equal. ring. Qed.
(** ** the theorems *)
Lemma transit_invariant : forall k periods periods' t0s t0s' x y yerr x' y' yerr' P T0 ts vs sigma ts' vs' sigma' d g c a, consts_ok k ->
  measures periods (u_day k) P -> measures periods' (u_day k) P -> measures t0s (u_day k) T0 -> measures t0s' (u_day k) (map (fun z => z + d) T0) ->
  rv_data k x y yerr ts vs sigma -> rv_data k x' y' yerr' ts' vs' sigma' ->
  List.Forall (fun p => p <> 0) P -> a <> 0 -> rewritten d g c a ts vs sigma ts' vs' sigma' ->
  estimate_semi_amplitude k periods' x' y' yerr' (Some t0s') = rmap (map (Rmult g)) (estimate_semi_amplitude k periods x y yerr (Some t0s)).
Proof.
  intros k periods periods' t0s t0s' x y yerr x' y' yerr' P T0 ts vs sg ts' vs' sg' d g c a kok MP MP' MT MT' D D' NZ Ha W.
  destruct (rv_lengths _ _ _ _ _ _ _ D) as (Lv & Ls & Hs). destruct (rv_lengths _ _ _ _ _ _ _ D') as (Lv' & Ls' & Hs').
  destruct (estimates_defined k periods t0s x y yerr P T0 ts vs sg kok MP MT D NZ) as (Df & Sh & _).
  destruct (estimates_defined k periods' t0s' x' y' yerr' P _ ts' vs' sg' kok MP' MT' D' NZ) as (Df' & Sh' & _). rewrite map_length in Df', Sh'.
  destruct (le_lt_dec (length P) (length T0)) as [LT|LT]; [|rewrite (Sh LT), (Sh' LT); reflexivity]. specialize (Df LT). specialize (Df' LT). clear Sh Sh'.
  assert (PT := rewritten_times _ _ _ _ _ _ _ _ _ _ W Lv Ls Lv' Ls').
  assert (Id : transit_identifiable P T0 ts <-> transit_identifiable P (map (fun z => z + d) T0) ts').
  { split; intros I K0 c0 L0 H.
    - apply (I K0 c0 L0). intros t It. rewrite <- (transit_shift d). apply H. apply (Permutation_in _ (Permutation_sym PT)). apply (in_map (fun t => t + d)). exact It.
    - apply (I K0 c0 L0). intros t It. apply (Permutation_in _ PT) in It. apply in_map_iff in It. destruct It as (t1 & <- & It). rewrite transit_shift. apply H. exact It. }
  destruct (estimate_semi_amplitude k periods x y yerr (Some t0s)) as [K|e] eqn:E; destruct (estimate_semi_amplitude k periods' x' y' yerr' (Some t0s')) as [K'|e'] eqn:E'; cbn [rmap].
  - f_equal. destruct (transit_optimal k periods t0s x y yerr P T0 ts vs sg K kok MP MT D NZ LT E) as (LK & c0 & M).
    assert (LT' : le (length P) (length (map (fun z : R => (z + d)%R) T0))) by (rewrite map_length; exact LT).
    destruct (transit_optimal k periods' t0s' x' y' yerr' P _ ts' vs' sg' K' kok MP' MT' D' NZ LT' E') as (LK' & c0' & M').
    apply (transit_unique P (map (fun z => z + d) T0) ts' vs' sg' K' c0' (map (Rmult g) K) (g * c0 + c) Lv' Ls' Hs' Df' LK'); [rewrite map_length; exact LK|exact M'|].
    intros K1 c1 L1. rewrite (rewritten_chi2 d g c a ts vs sg ts' vs' sg' (transit_model P T0 K c0) _ W Ha Hs Lv Ls).
    2:{ intro t. rewrite transit_shift. rewrite <- scale_lin. transitivity (transit_model P T0 (lincomb g 0 K K) (g * c0 + 0 * c0) t + c); [|rewrite transit_lin by assumption; ring].
        clear - LK. revert T0. assert (G : forall P T0 L c0 c, transit_model P T0 L (c0 + c) t = transit_model P T0 L c0 t + c).
        { intro P'. induction P' as [|p P' IH]; intros [|t0 T0] [|z L] c0' c'; cbn; try reflexivity. rewrite IH. ring. }
        intro T0. rewrite <- G. f_equal. ring. }
    destruct (Req_dec g 0) as [->|Hg].
    { unfold Rdiv. rewrite Rmult_0_l, pow_i by lia. rewrite Rmult_0_l, chi2_sum. apply sumf_nonneg. intros o _. rewrite <- Rsqr_pow2. apply Rle_0_sqr. }
    assert (L2 : length (map (Rmult (/ g)) K1) = length P) by (rewrite map_length; exact L1).
    rewrite (rewritten_chi2 d g c a ts vs sg ts' vs' sg' (transit_model P T0 (map (Rmult (/ g)) K1) ((c1 - c) / g)) _ W Ha Hs Lv Ls).
    + apply Rmult_le_compat_l; [rewrite <- Rsqr_pow2; apply Rle_0_sqr|]. apply M. exact L2.
    + intro t. rewrite transit_shift. rewrite <- scale_lin. replace ((c1 - c) / g) with (/ g * (c1 - c) + 0 * (c1 - c)) by (field; exact Hg). rewrite transit_lin by assumption.
      assert (G : forall P T0 L c0 c, transit_model P T0 L (c0 + c) t = transit_model P T0 L c0 t + c).
      { intro P'. induction P' as [|p P' IH]; intros [|t0 T1] [|z L] z0 z1; cbn; try reflexivity. rewrite IH. ring. }
      replace c1 with ((c1 - c) + c) at 1 by ring. rewrite G. field. exact Hg.
  - exfalso. apply (proj2 Df'). apply Id. exact Df.
  - exfalso. apply (proj2 Df). apply Id. exact Df'.
  - destruct Df as [-> _], Df' as [-> _]. reflexivity.
Qed.
Lemma phase_invariant : forall k periods periods' x y yerr x' y' yerr' P ts vs sigma ts' vs' sigma' d g c a, consts_ok k ->
  measures periods (u_day k) P -> measures periods' (u_day k) P ->
  rv_data k x y yerr ts vs sigma -> rv_data k x' y' yerr' ts' vs' sigma' ->
  List.Forall (fun p => p <> 0) P -> a <> 0 -> rewritten d g c a ts vs sigma ts' vs' sigma' ->
  estimate_semi_amplitude k periods' x' y' yerr' None = rmap (map (Rmult (Rabs g))) (estimate_semi_amplitude k periods x y yerr None).
Proof.
  intros k periods periods' x y yerr x' y' yerr' P ts vs sg ts' vs' sg' d g c a kok MP MP' D D' NZ Ha W.
  destruct (rv_lengths _ _ _ _ _ _ _ D) as (Lv & Ls & Hs). destruct (rv_lengths _ _ _ _ _ _ _ D') as (Lv' & Ls' & Hs').
  assert (MT : measures (plain (@nil R)) (u_day k) []) by reflexivity.
  destruct (estimates_defined k periods (plain []) x y yerr P [] ts vs sg kok MP MT D NZ) as (_ & _ & Df).
  destruct (estimates_defined k periods' (plain []) x' y' yerr' P [] ts' vs' sg' kok MP' MT D' NZ) as (_ & _ & Df').
  assert (PT := rewritten_times _ _ _ _ _ _ _ _ _ _ W Lv Ls Lv' Ls').
  assert (Tz : forall q A B, length A = length P -> length B = length P -> (forall z, In z A -> z = 0) -> (forall z, In z B -> z = 0) -> (forall z, In z (fst (turned q P A B)) -> z = 0) /\ (forall z, In z (snd (turned q P A B)) -> z = 0)).
  { intro q. clear. induction P as [|p P IH]; intros [|u A] [|v B] L1 L2 HA HB; cbn in *; try discriminate; [split; intros z []|]. destruct (IH A B ltac:(lia) ltac:(lia) ltac:(auto) ltac:(auto)) as [I1 I2].
    destruct (turned q P A B) as [A' B']. cbn [fst snd] in *. rewrite (HA u (or_introl eq_refl)), (HB v (or_introl eq_refl)). split; intros z [<-|I]; try ring; auto. }
  assert (Id : phase_identifiable P ts <-> phase_identifiable P ts').
  { split; intros I A0 B0 c0 LA LB H.
    - destruct (turned_length d P A0 B0 LA LB) as [TA TB]. destruct (I _ _ c0 TA TB) as (Z0 & ZA & ZB).
      { intros t It. rewrite <- phase_shift by assumption. apply H. apply (Permutation_in _ (Permutation_sym PT)). apply (in_map (fun t => t + d)). exact It. }
      split; [exact Z0|]. assert (Q := Tz (- d) _ _ TA TB ZA ZB). rewrite turned_back in Q by assumption. exact Q.
    - destruct (turned_length (- d) P A0 B0 LA LB) as [TA TB]. destruct (I _ _ c0 TA TB) as (Z0 & ZA & ZB).
      { intros t It. apply (Permutation_in _ PT) in It. apply in_map_iff in It. destruct It as (t1 & <- & It). rewrite <- phase_shift by assumption. replace (t1 + d + - d) with t1 by ring. apply H. exact It. }
      split; [exact Z0|]. assert (Q := Tz (- - d) _ _ TA TB ZA ZB). rewrite turned_back in Q by assumption. exact Q. }
  assert (G : forall t P A B c0 c, phase_model P A B (c0 + c) t = phase_model P A B c0 t + c).
  { intros t P'. induction P' as [|p P' IH]; intros [|u A] [|v B] z0 z1; cbn; try reflexivity. rewrite IH. ring. }
  destruct (estimate_semi_amplitude k periods x y yerr None) as [K|e] eqn:E; destruct (estimate_semi_amplitude k periods' x' y' yerr' None) as [K'|e'] eqn:E'; cbn [rmap].
  - f_equal. destruct (phase_optimal k periods x y yerr P ts vs sg K kok MP D NZ E) as (A & B & c0 & LA & LB & -> & M).
    destruct (phase_optimal k periods' x' y' yerr' P ts' vs' sg' K' kok MP' D' NZ E') as (A' & B' & c0' & LA' & LB' & -> & M').
    destruct (turned_length (- d) P A B LA LB) as [TA TB].
    destruct (phase_unique P ts' vs' sg' A' B' c0' (map (Rmult g) (fst (turned (- d) P A B))) (map (Rmult g) (snd (turned (- d) P A B))) (g * c0 + c) Lv' Ls' Hs' Df' LA' LB') as [-> ->].
    + rewrite map_length. exact TA.
    + rewrite map_length. exact TB.
    + exact M'.
    + intros A1 B1 c1 L1 L2. rewrite (rewritten_chi2 d g c a ts vs sg ts' vs' sg' (phase_model P A B c0) _ W Ha Hs Lv Ls).
      2:{ intro t. rewrite G, <- !scale_lin. replace (g * c0) with (g * c0 + 0 * c0) by ring. rewrite phase_lin by assumption. rewrite <- phase_shift by assumption. replace (t + d + - d) with t by ring. ring. }
      destruct (Req_dec g 0) as [->|Hg].
      { unfold Rdiv. rewrite Rmult_0_l, pow_i by lia. rewrite Rmult_0_l, chi2_sum. apply sumf_nonneg. intros o _. rewrite <- Rsqr_pow2. apply Rle_0_sqr. }
      destruct (turned_length d P A1 B1 L1 L2) as [T1 T2].
      rewrite (rewritten_chi2 d g c a ts vs sg ts' vs' sg' (phase_model P (map (Rmult (/ g)) (fst (turned d P A1 B1))) (map (Rmult (/ g)) (snd (turned d P A1 B1))) ((c1 - c) / g)) _ W Ha Hs Lv Ls).
      * apply Rmult_le_compat_l; [rewrite <- Rsqr_pow2; apply Rle_0_sqr|]. apply M; rewrite map_length; assumption.
      * intro t. rewrite phase_shift by assumption. rewrite <- !scale_lin. replace ((c1 - c) / g) with (/ g * (c1 - c) + 0 * (c1 - c)) by (field; exact Hg). rewrite phase_lin by assumption.
        replace c1 with ((c1 - c) + c) at 1 by ring. rewrite G. field. exact Hg.
    + rewrite amp_scale, turned_amp by assumption. reflexivity.
  - exfalso. apply (proj2 Df'). apply Id. exact Df.
  - exfalso. apply (proj2 Df). apply Id. exact Df'.
  - destruct Df as [-> _], Df' as [-> _]. reflexivity.
Qed.
