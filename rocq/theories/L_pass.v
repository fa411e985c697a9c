(** * Transits in general: a planet that moves away from the star's centre from
    mid-transit to the last contact *)
From Coq Require Import Reals Lra Lia Psatz List Bool Arith ZArith.
From Coquelicot Require Import Coquelicot.
From Verif Require Import Num CoreOps Inst CoreFlux M_units M_kepler M_fin M_tensor M_limbdark Spec_orbit Spec_params Spec_array Spec_light Spec_depth Spec_curve
  L_real L_flux L_light1 L_area L_depth L_depth2 L_depth3 L_depth4 L_curve L_curve2 L_curve3 L_lens.
Open Scope R_scope.

Record passes (p : R -> R * R * R) (Rs r t0 P w : R) (s : R -> R) : Prop := {
  pa_Rs : 0 < Rs; pa_r : 0 < r; pa_w : 0 < w < P / 2;
  pa_in : forall (z : Z) d, Rabs d < w -> 0 < vz (p (t0 + IZR z * P + d)) /\ apart (p (t0 + IZR z * P + d)) = s (Rabs d);
  pa_out : forall (z : Z) d, w <= Rabs d <= P / 2 -> vz (p (t0 + IZR z * P + d)) <= 0 \/ Rs + r <= apart (p (t0 + IZR z * P + d));
  pa_mono : forall d d', 0 <= d -> d < d' -> d' < w -> s d < s d';
  pa_lt : forall d, 0 <= d < w -> 0 <= s d < Rs + r;
  pa_slow : forall c, s 0 < c -> exists d, 0 < d < w /\ s d <= c }.
Definition reaches (Rs r w : R) (s : R -> R) : Prop := exists d0, 0 <= d0 < w /\ forall d, d0 < d < w -> Rabs (Rs - r) < s d.

Section One.
Variables (p : R -> R * R * R) (Rs r t0 P w : R) (s : R -> R).
Hypothesis H : passes p Rs r t0 P w s.
Lemma pass_at u1 u2 (z : Z) d : Rabs d < w -> flux_at u1 u2 (p (t0 + IZR z * P + d)) r Rs = rel_flux u1 u2 (s (Rabs d) / Rs) (r / Rs) 1.
Proof.
  intro Hd. destruct (pa_in _ _ _ _ _ _ _ H z d Hd) as [V A]. assert (HR := pa_Rs _ _ _ _ _ _ _ H). unfold flux_at. fold (apart (p (t0 + IZR z * P + d))). rewrite A. unfold rel_flux.
  destruct (Rlt_dec 0 1) as [_|n]; [|lra]. destruct (Rlt_dec 0 (vz (p (t0 + IZR z * P + d)) / Rs)) as [_|n]; [reflexivity|]. exfalso. apply n, Rdiv_lt_0_compat; assumption.
Qed.
Lemma pass_out u1 u2 (z : Z) d : disk_flux u1 u2 <> 0 -> w <= Rabs d <= P / 2 -> flux_at u1 u2 (p (t0 + IZR z * P + d)) r Rs = 0.
Proof.
  intros D Hd. assert (HR := pa_Rs _ _ _ _ _ _ _ H). assert (Hr := pa_r _ _ _ _ _ _ _ H). apply rel_flux_out; [exact D|]. fold (apart (p (t0 + IZR z * P + d))). assert (Ap : 0 <= apart (p (t0 + IZR z * P + d))) by apply sqrt_pos.
  destruct (pa_out _ _ _ _ _ _ _ H z d Hd) as [h|h].
  - right. unfold Rdiv. assert (S := Rinv_0_lt_compat _ HR). nra.
  - left. rewrite !Rabs_pos_eq by (apply Rdiv_le_0_compat; lra). apply (Rmult_le_reg_r Rs); [exact HR|]. replace ((1 + r / Rs) * Rs) with (Rs + r) by (field; lra). replace (apart (p (t0 + IZR z * P + d)) / Rs * Rs) with (apart (p (t0 + IZR z * P + d))) by (field; lra). exact h.
Qed.
Lemma pass_dims u1 u2 t : shining u1 u2 -> flux_at u1 u2 (p t) r Rs <= 0 /\ (flux_at u1 u2 (p t) r Rs < 0 <-> exists z : Z, Rabs (t - (t0 + IZR z * P)) < w).
Proof.
  intro Hs. assert (HR := pa_Rs _ _ _ _ _ _ _ H). assert (Hr := pa_r _ _ _ _ _ _ _ H). assert (Hw := pa_w _ _ _ _ _ _ _ H).
  assert (In : forall z : Z, Rabs (t - (t0 + IZR z * P)) < w -> flux_at u1 u2 (p t) r Rs < 0).
  { intros z Hz. replace t with (t0 + IZR z * P + (t - (t0 + IZR z * P))) by ring. rewrite pass_at by exact Hz. assert (L := pa_lt _ _ _ _ _ _ _ H (Rabs (t - (t0 + IZR z * P))) (conj (Rabs_pos _) Hz)).
    apply rel_flux_in; [exact Hs|apply Rdiv_lt_0_compat; assumption| |lra]. rewrite Rabs_pos_eq by (apply Rdiv_le_0_compat; lra). apply (Rmult_lt_reg_r Rs); [exact HR|]. replace ((1 + r / Rs) * Rs) with (Rs + r) by (field; lra). replace (s (Rabs (t - (t0 + IZR z * P))) / Rs * Rs) with (s (Rabs (t - (t0 + IZR z * P)))) by (field; lra). lra. }
  destruct (near_mid t0 P t ltac:(lra)) as [z Hz]. destruct (Rlt_dec (Rabs (t - (t0 + IZR z * P))) w) as [h|h].
  - assert (Q := In z h). split; [lra|]. split; [intros _; exists z; exact h|intros _; exact Q].
  - assert (Q := pass_out u1 u2 z (t - (t0 + IZR z * P)) (shining_flux u1 u2 Hs) ltac:(lra)). replace (t0 + IZR z * P + (t - (t0 + IZR z * P))) with t in Q by ring. split; [lra|]. split; [lra|]. intros [z' Hz']. apply (In z' Hz').
Qed.
End One.
Section Two.
Variables (p : R -> R * R * R) (Rs r t0 P w : R) (s : R -> R).
Hypothesis H : passes p Rs r t0 P w s.
Variables (p' : R -> R * R * R) (Rs' r' t0' P' w' : R) (s' : R -> R).
Hypothesis H' : passes p' Rs' r' t0' P' w' s'.
Lemma pass_windows u1 u2 u1' u2' : shining u1 u2 -> shining u1' u2' -> (forall t, flux_at u1 u2 (p t) r Rs = flux_at u1' u2' (p' t) r' Rs') ->
  P' = P /\ w' = w /\ exists z : Z, t0' = t0 + IZR z * P.
Proof.
  intros Hs Hs' E. apply windows; [apply (pa_w _ _ _ _ _ _ _ H)|apply (pa_w _ _ _ _ _ _ _ H')|]. intro t.
  rewrite <- (proj2 (pass_dims p Rs r t0 P w s H u1 u2 t Hs)), <- (proj2 (pass_dims p' Rs' r' t0' P' w' s' H' u1' u2' t Hs')), E. reflexivity.
Qed.
Variables u1 u2 : R.
Hypothesis Sh : shining u1 u2.
Hypothesis E : forall t, flux_at u1 u2 (p t) r Rs = flux_at u1 u2 (p' t) r' Rs'.
Lemma pass_times : P' = P /\ w' = w /\ exists z : Z, t0' = t0 + IZR z * P.
Proof. apply (pass_windows u1 u2 u1 u2 Sh Sh E). Qed.
Lemma pass_same d : 0 <= d < w -> rel_flux u1 u2 (s d / Rs) (r / Rs) 1 = rel_flux u1 u2 (s' d / Rs') (r' / Rs') 1.
Proof.
  intro Hd. destruct pass_times as (E1 & E2 & z & E3). assert (A := pass_at p Rs r t0 P w s H u1 u2 z d ltac:(rewrite Rabs_pos_eq; lra)). assert (A' := pass_at p' Rs' r' t0' P' w' s' H' u1 u2 0 d ltac:(rewrite Rabs_pos_eq; lra)).
  rewrite Rabs_pos_eq in A, A' by lra. rewrite <- A, <- A', E. f_equal. f_equal. rewrite E3. ring.
Qed.
(** if the ratio of the radii is known, the distance from the centre is the same before the last contact *)
Lemma pass_shape : darkening u1 u2 -> 0 < intensity u1 u2 0 -> r' / Rs' = r / Rs -> reaches Rs r w s -> reaches Rs' r' w' s' -> exists d0, 0 <= d0 < w /\ forall d, d0 < d < w -> s' d / Rs' = s d / Rs.
Proof.
  intros Hk Hi Er (d0 & D0 & F) (d0' & D0' & F'). destruct pass_times as (_ & Ew & _). rewrite Ew in D0', F'. assert (HR := pa_Rs _ _ _ _ _ _ _ H). assert (Hr := pa_r _ _ _ _ _ _ _ H). assert (HR' := pa_Rs _ _ _ _ _ _ _ H'). assert (Hr' := pa_r _ _ _ _ _ _ _ H').
  exists (Rmax d0 d0'). split; [split; [apply Rle_trans with d0; [lra|apply Rmax_l]|apply Rmax_lub_lt; lra]|]. intros d [h1 h2]. assert (A1 := Rmax_l d0 d0'). assert (A2 := Rmax_r d0 d0').
  specialize (F d ltac:(lra)). specialize (F' d ltac:(lra)). assert (L := pa_lt _ _ _ _ _ _ _ H d ltac:(lra)). assert (L' := pa_lt _ _ _ _ _ _ _ H' d ltac:(rewrite Ew; lra)).
  assert (S := pass_same d ltac:(lra)). rewrite Er in S.
  assert (G : forall x y R0 q, 0 < R0 -> q = y / R0 -> Rabs (R0 - y) < x < R0 + y -> Rabs (1 - q) < x / R0 < 1 + q).
  { intros x y R0 q h -> [k1 k2]. replace (1 - y / R0) with ((R0 - y) / R0) by (field; lra). replace (1 + y / R0) with ((R0 + y) / R0) by (field; lra). unfold Rdiv. rewrite Rabs_mult, (Rabs_pos_eq (/ R0)) by (left; apply Rinv_0_lt_compat, h). assert (0 < / R0) by (apply Rinv_0_lt_compat, h). split; apply Rmult_lt_compat_r; assumption. }
  symmetry. apply (rel_injective (r / Rs) ltac:(apply Rdiv_lt_0_compat; assumption) u1 u2 _ _ 1 1); try assumption; try lra.
  - apply (G _ r); [exact HR|reflexivity|lra].
  - apply (G _ r'); [exact HR'|congruence|lra].
Qed.
Lemma pass_depth d : 0 <= d < w -> s d + r <= Rs -> rel_flux 0 0 (s d / Rs) (r / Rs) 1 = - (r / Rs * (r / Rs)).
Proof.
  intros Hd F. assert (HR := pa_Rs _ _ _ _ _ _ _ H). assert (Hr := pa_r _ _ _ _ _ _ _ H). assert (L := pa_lt _ _ _ _ _ _ _ H d Hd). apply uniform_inside; [lra|].
  rewrite !Rabs_pos_eq by (apply Rdiv_le_0_compat; lra). replace (s d / Rs + r / Rs) with ((s d + r) / Rs) by (field; lra). apply (Rmult_le_reg_r Rs); [exact HR|]. replace ((s d + r) / Rs * Rs) with (s d + r) by (field; lra). lra.
Qed.
End Two.
Section Three.
Variables (p : R -> R * R * R) (Rs r t0 P w : R) (s : R -> R).
Hypothesis H : passes p Rs r t0 P w s.
Variables (p' : R -> R * R * R) (Rs' r' t0' P' w' : R) (s' : R -> R).
Hypothesis H' : passes p' Rs' r' t0' P' w' s'.
Hypothesis E : forall t, flux_at 0 0 (p t) r Rs = flux_at 0 0 (p' t) r' Rs'.
(** full transits show the ratio of the radii *)
Lemma pass_ratio : s 0 + r <= Rs -> s' 0 + r' <= Rs' -> r' / Rs' = r / Rs.
Proof.
  intros F F'. assert (Hw := pa_w _ _ _ _ _ _ _ H). assert (Hw' := pa_w _ _ _ _ _ _ _ H'). assert (HR := pa_Rs _ _ _ _ _ _ _ H). assert (Hr := pa_r _ _ _ _ _ _ _ H). assert (HR' := pa_Rs _ _ _ _ _ _ _ H'). assert (Hr' := pa_r _ _ _ _ _ _ _ H').
  assert (S := pass_same p Rs r t0 P w s H p' Rs' r' t0' P' w' s' H' 0 0 uniform_shines E 0 ltac:(lra)). rewrite (pass_depth p Rs r t0 P w s H 0 ltac:(lra) F), (pass_depth p' Rs' r' t0' P' w' s' H' 0 ltac:(lra) F') in S.
  assert (0 < r / Rs) by (apply Rdiv_lt_0_compat; assumption). assert (0 < r' / Rs') by (apply Rdiv_lt_0_compat; assumption). nra.
Qed.
(** and show that they are full *)
Lemma pass_full : s 0 + r < Rs -> s' 0 + r' <= Rs'.
Proof.
  intro F. apply Rnot_lt_le. intro G. assert (Hw := pa_w _ _ _ _ _ _ _ H). assert (Hw' := pa_w _ _ _ _ _ _ _ H'). assert (HR := pa_Rs _ _ _ _ _ _ _ H). assert (Hr := pa_r _ _ _ _ _ _ _ H). assert (HR' := pa_Rs _ _ _ _ _ _ _ H'). assert (Hr' := pa_r _ _ _ _ _ _ _ H').
  destruct (pass_times p Rs r t0 P w s H p' Rs' r' t0' P' w' s' H' 0 0 uniform_shines E) as (_ & Ew & _). destruct (pa_slow _ _ _ _ _ _ _ H (Rs - r) ltac:(lra)) as (d & Hd & Sd).
  assert (S0 := pass_same p Rs r t0 P w s H p' Rs' r' t0' P' w' s' H' 0 0 uniform_shines E 0 ltac:(lra)). assert (S1 := pass_same p Rs r t0 P w s H p' Rs' r' t0' P' w' s' H' 0 0 uniform_shines E d ltac:(lra)).
  rewrite (pass_depth p Rs r t0 P w s H 0 ltac:(lra) ltac:(lra)) in S0. rewrite (pass_depth p Rs r t0 P w s H d ltac:(lra) ltac:(lra)) in S1.
  assert (L0 := pa_lt _ _ _ _ _ _ _ H 0 ltac:(lra)). assert (L0' := pa_lt _ _ _ _ _ _ _ H' 0 ltac:(lra)). assert (L1' := pa_lt _ _ _ _ _ _ _ H' d ltac:(lra)). assert (M := pa_mono _ _ _ _ _ _ _ H' 0 d ltac:(lra) ltac:(lra) ltac:(lra)).
  assert (Q : 0 < r / Rs < 1). { split; [apply Rdiv_lt_0_compat; assumption|]. apply (Rmult_lt_reg_r Rs); [exact HR|]. replace (r / Rs * Rs) with r by (field; lra). lra. }
  destruct (Rle_dec (Rs' + s' 0) r') as [C|C].
  - rewrite rel_flux_covered in S0; [nra|rewrite uniform_disk; assert (Hpi := PI_RGT_0); lra|lra|]. rewrite !Rabs_pos_eq by (apply Rdiv_le_0_compat; lra). apply (Rmult_le_reg_r Rs'); [exact HR'|]. replace ((1 + s' 0 / Rs') * Rs') with (Rs' + s' 0) by (field; lra). replace (r' / Rs' * Rs') with r' by (field; lra). exact C.
  - assert (K : rel_flux 0 0 (s' 0 / Rs') (r' / Rs') 1 < rel_flux 0 0 (s' d / Rs') (r' / Rs') 1); [|lra].
    assert (I : 0 < / Rs') by (apply Rinv_0_lt_compat, HR'). apply uniform_strict; try lra; try (apply Rdiv_lt_0_compat; assumption).
    + replace (1 - r' / Rs') with ((Rs' - r') / Rs') by (field; lra). unfold Rdiv. rewrite Rabs_mult, (Rabs_pos_eq (/ Rs')) by lra. apply Rmult_lt_compat_r; [exact I|]. apply Rabs_def1; lra.
    + apply Rmult_lt_compat_r; lra.
    + replace (1 + r' / Rs') with ((Rs' + r') / Rs') by (field; lra). apply Rmult_lt_compat_r; [exact I|lra].
Qed.
End Three.
