(** * Light curves change steadily *)
From Coq Require Import Reals Lra Lia Psatz List Bool Arith ZArith.
From Coquelicot Require Import Coquelicot.
From Verif Require Import Num CoreOps Inst CoreFlux M_units M_kepler M_fin M_tensor M_limbdark M_simple Spec_orbit Spec_params Spec_array Spec_light Spec_simple Spec_depth Spec_delay Spec_lip
  L_real L_flux L_orbit L_motion L_pmotion5 L_delay L_area L_depth L_lip L_light1 L_light4 L_light7 L_light8 L_depth2 L_depth3 L_depth4 L_simple L_simple2.
Import ListNotations.
Local Notation length := List.length.
Open Scope R_scope.

Lemma intensity_size u1 u2 mu : 0 <= mu <= 1 -> Rabs (intensity u1 u2 mu) <= 1 + Rabs u1 + Rabs u2.
Proof.
  intro H. unfold intensity. set (v := 1 - mu). assert (V : 0 <= v <= 1) by (unfold v; lra).
  assert (A := Rle_abs u1). assert (B := Rle_abs u2). assert (A' := Rle_abs (- u1)). assert (B' := Rle_abs (- u2)). rewrite Rabs_Ropp in A', B'.
  assert (A0 := Rabs_pos u1). assert (B0 := Rabs_pos u2). assert (V2 : 0 <= v * v <= 1) by nra.
  assert (C : - Rabs u1 <= u1 * v <= Rabs u1) by (split; nra). assert (D : - Rabs u2 <= u2 * (v * v) <= Rabs u2) by (split; nra).
  apply Rabs_le. split; lra.
Qed.
Lemma weight_pos u1 u2 : disk_flux u1 u2 <> 0 -> 0 < weight u1 u2.
Proof.
  intro Hd. unfold weight. apply Rdiv_lt_0_compat; [|apply Rabs_pos_lt; exact Hd]. apply Rmult_lt_0_compat; [apply PI_RGT_0|]. assert (A := Rabs_pos u1). assert (B := Rabs_pos u2). lra.
Qed.
Lemma rel_lip u1 u2 b b' r los los' : disk_flux u1 u2 <> 0 -> 0 < los -> 0 < los' ->
  Rabs (rel_flux u1 u2 b r los - rel_flux u1 u2 b' r los') <= weight u1 u2 * (4 * Rabs r * Rabs (Rabs b - Rabs b')).
Proof.
  intros Hd Hl Hl'. rewrite !rel_hidden by assumption. assert (Hp := Rabs_pos_lt _ Hd).
  set (g := intensity u1 u2). set (h := hidden_flux g (Rabs b) (Rabs r)). set (h' := hidden_flux g (Rabs b') (Rabs r)).
  replace (- h / disk_flux u1 u2 - - h' / disk_flux u1 u2) with (- (h - h') / disk_flux u1 u2) by (field; exact Hd).
  unfold Rdiv. rewrite Rabs_mult, Rabs_Ropp, Rabs_inv. unfold weight, Rdiv.
  replace (PI * (1 + Rabs u1 + Rabs u2) * / Rabs (disk_flux u1 u2) * (4 * Rabs r * Rabs (Rabs b - Rabs b'))) with (4 * PI * (1 + Rabs u1 + Rabs u2) * Rabs r * Rabs (Rabs b - Rabs b') * / Rabs (disk_flux u1 u2)) by ring.
  apply Rmult_le_compat_r; [left; apply Rinv_0_lt_compat; exact Hp|]. apply hidden_flux_lip; try apply Rabs_pos; [intro; apply intensity_cont|apply intensity_size].
Qed.
Lemma rel_lip_r u1 u2 b r r' los : disk_flux u1 u2 <> 0 ->
  Rabs (rel_flux u1 u2 b r los - rel_flux u1 u2 b r' los) <= weight u1 u2 * Rabs (r * r - r' * r').
Proof.
  intros Hd. assert (W := weight_pos u1 u2 Hd). destruct (Rlt_dec 0 los) as [Hl|Hl].
  - rewrite !rel_hidden by assumption. assert (Hp := Rabs_pos_lt _ Hd).
    set (g := intensity u1 u2). set (h := hidden_flux g (Rabs b) (Rabs r)). set (h' := hidden_flux g (Rabs b) (Rabs r')).
    replace (- h / disk_flux u1 u2 - - h' / disk_flux u1 u2) with (- (h - h') / disk_flux u1 u2) by (field; exact Hd).
    unfold Rdiv. rewrite Rabs_mult, Rabs_Ropp, Rabs_inv. unfold weight, Rdiv.
    replace (PI * (1 + Rabs u1 + Rabs u2) * / Rabs (disk_flux u1 u2) * Rabs (r * r - r' * r')) with (PI * (1 + Rabs u1 + Rabs u2) * Rabs (r * r - r' * r') * / Rabs (disk_flux u1 u2)) by ring.
    apply Rmult_le_compat_r; [left; apply Rinv_0_lt_compat; exact Hp|].
    replace (r * r) with (Rabs r * Rabs r) by (rewrite <- Rabs_mult; apply Rabs_pos_eq, Rle_0_sqr). replace (r' * r') with (Rabs r' * Rabs r') by (rewrite <- Rabs_mult; apply Rabs_pos_eq, Rle_0_sqr).
    apply hidden_flux_lip_r; try apply Rabs_pos; [intro; apply intensity_cont|apply intensity_size].
  - unfold rel_flux. destruct (Rlt_dec 0 los); [contradiction|]. rewrite Rminus_diag_eq, Rabs_R0 by reflexivity. apply Rmult_le_pos; [lra|apply Rabs_pos].
Qed.
Lemma rel_lip_both u1 u2 b b' r r' los los' : disk_flux u1 u2 <> 0 -> 0 < los -> 0 < los' ->
  Rabs (rel_flux u1 u2 b r los - rel_flux u1 u2 b' r' los') <= weight u1 u2 * (4 * Rabs r * Rabs (Rabs b - Rabs b') + Rabs (r * r - r' * r')).
Proof.
  intros Hd Hl Hl'. assert (A := rel_lip u1 u2 b b' r los los' Hd Hl Hl'). assert (B := rel_lip_r u1 u2 b' r r' los' Hd).
  replace (rel_flux u1 u2 b r los - rel_flux u1 u2 b' r' los') with ((rel_flux u1 u2 b r los - rel_flux u1 u2 b' r los') + (rel_flux u1 u2 b' r los' - rel_flux u1 u2 b' r' los')) by ring.
  eapply Rle_trans; [apply Rabs_triang|]. lra.
Qed.
(** ** entries *)
Lemma flux_steady : forall u1 u2 b b' r r' los los' i bi bi' ri ri' li li', disk_flux u1 u2 <> 0 ->
  aget b i = Fin bi -> aget r i = Fin ri -> aget los i = Fin li -> aget b' i = Fin bi' -> aget r' i = Fin ri' -> aget los' i = Fin li' ->
  0 < li -> 0 < li' ->
  exists v v', aget (compute_light_curve (ld_init (Fin u1) (Fin u2)) b r (Some los)) i = Fin v /\ aget (compute_light_curve (ld_init (Fin u1) (Fin u2)) b' r' (Some los')) i = Fin v' /\
    Rabs (v - v') <= weight u1 u2 * (4 * Rabs ri * Rabs (Rabs bi - Rabs bi') + Rabs (ri * ri - ri' * ri')).
Proof.
  intros u1 u2 b b' r r' los los' i bi bi' ri ri' li li' Hd H1 H2 H3 H4 H5 H6 L L'. eexists _, _. split; [apply flux_elt; eassumption|]. split; [apply flux_elt; eassumption|]. apply rel_lip_both; assumption.
Qed.
(** ** a body on a path *)
Section P.
Variables (u1 u2 r rst V : R) (P : R -> R * R * R).
Hypothesis Hd : disk_flux u1 u2 <> 0.
Hypothesis Hs : 0 < rst.
Hypothesis Hr : 0 <= r.
Hypothesis HV : forall t t', Rabs (apart (P t) - apart (P t')) <= V * Rabs (t - t').
Let C := weight u1 u2 * (4 * (r / rst) * (V / rst)).
Lemma apart_pos Q : 0 <= apart Q. Proof. apply sqrt_pos. Qed.
Lemma V_pos : 0 <= V.
Proof. assert (A := HV 1 0). rewrite Rminus_0_r, (Rabs_pos_eq 1) in A by lra. assert (B := Rabs_pos (apart (P 1) - apart (P 0))). lra. Qed.
Lemma C_pos : 0 <= C.
Proof.
  assert (A := weight_pos u1 u2 Hd). assert (B := V_pos). apply Rmult_le_pos; [lra|]. apply Rmult_le_pos; [|apply Rdiv_le_0_compat; lra].
  assert (0 <= r / rst) by (apply Rdiv_le_0_compat; lra). lra.
Qed.
Lemma front_lip t t' z z' : 0 < z -> 0 < z' -> Rabs (rel_flux u1 u2 (apart (P t) / rst) (r / rst) z - rel_flux u1 u2 (apart (P t') / rst) (r / rst) z') <= C * Rabs (t - t').
Proof.
  intros Hz Hz'. eapply Rle_trans; [apply rel_lip; assumption|]. unfold C. rewrite (Rmult_assoc (weight u1 u2)). assert (W := weight_pos u1 u2 Hd).
  apply Rmult_le_compat_l; [lra|]. assert (R0 : 0 <= r / rst) by (apply Rdiv_le_0_compat; lra). rewrite (Rabs_pos_eq (r / rst)) by exact R0.
  rewrite (Rmult_assoc (4 * (r / rst))). apply Rmult_le_compat_l; [lra|].
  assert (A1 := apart_pos (P t)). assert (A2 := apart_pos (P t')).
  rewrite (Rabs_pos_eq (apart (P t) / rst)), (Rabs_pos_eq (apart (P t') / rst)) by (apply Rdiv_le_0_compat; lra).
  replace (apart (P t) / rst - apart (P t') / rst) with ((apart (P t) - apart (P t')) * / rst) by (field; lra). rewrite Rabs_mult, (Rabs_pos_eq (/ rst)) by (left; apply Rinv_0_lt_compat; exact Hs).
  replace (V / rst * Rabs (t - t')) with (V * Rabs (t - t') * / rst) by (field; lra). apply Rmult_le_compat_r; [left; apply Rinv_0_lt_compat; exact Hs|apply HV].
Qed.
(** a path that crosses the plane of the sky outside the star *)
Hypothesis Hz : forall t, continuity_pt (fun s => vz (P s)) t.
Hypothesis Hout : forall t, vz (P t) = 0 -> rst + r <= apart (P t).
Lemma out_zero t z : rst + r <= apart (P t) -> rel_flux u1 u2 (apart (P t) / rst) (r / rst) z = 0.
Proof.
  intro H. apply rel_flux_out; [exact Hd|left]. assert (A1 := apart_pos (P t)).
  rewrite (Rabs_pos_eq (r / rst)), (Rabs_pos_eq (apart (P t) / rst)) by (apply Rdiv_le_0_compat; lra).
  apply (Rmult_le_reg_r rst); [exact Hs|]. replace ((1 + r / rst) * rst) with (rst + r) by (field; lra). replace (apart (P t) / rst * rst) with (apart (P t)) by (field; lra). exact H.
Qed.
Lemma behind t : vz (P t) <= 0 -> flux_at u1 u2 (P t) r rst = 0.
Proof.
  intro H. apply rel_flux_out; [exact Hd|right]. apply Rmult_le_reg_r with rst; [exact Hs|]. replace (vz (P t) / rst * rst) with (vz (P t)) by (field; lra). lra.
Qed.
Lemma front z : 0 < z -> 0 < z / rst. Proof. intro H. apply Rdiv_lt_0_compat; assumption. Qed.
Lemma crossing t t' : 0 < vz (P t) -> vz (P t') <= 0 -> exists s, vz (P s) = 0 /\ Rabs (t - s) <= Rabs (t - t').
Proof.
  intros H H'. destruct (Rle_dec t t') as [L|L].
  - destruct (IVT_cor (fun s => vz (P s)) t t') as (s & B & E); [exact Hz|exact L|nra|]. exists s. split; [exact E|]. rewrite !Rabs_left1 by lra. lra.
  - destruct (IVT_cor (fun s => vz (P s)) t' t) as (s & B & E); [exact Hz|lra|nra|]. exists s. split; [exact E|]. rewrite !Rabs_pos_eq by lra. lra.
Qed.
Lemma entering t t' : 0 < vz (P t) -> vz (P t') <= 0 -> Rabs (flux_at u1 u2 (P t) r rst) <= C * Rabs (t - t').
Proof.
  intros H H'. destruct (crossing t t' H H') as (s & E & B). apply Rle_trans with (C * Rabs (t - s)); [|apply Rmult_le_compat_l; [apply C_pos|exact B]].
  assert (F := front_lip t s (vz (P t) / rst) 1 (front _ H) ltac:(lra)). rewrite (out_zero s 1) in F by (apply Hout, E). rewrite Rminus_0_r in F. exact F.
Qed.
Lemma path_steady t t' : Rabs (flux_at u1 u2 (P t) r rst - flux_at u1 u2 (P t') r rst) <= C * Rabs (t - t').
Proof.
  destruct (Rlt_dec 0 (vz (P t))) as [H|H], (Rlt_dec 0 (vz (P t'))) as [H'|H'].
  - apply (front_lip t t' (vz (P t) / rst) (vz (P t') / rst)); apply front; assumption.
  - rewrite (behind t') by lra. rewrite Rminus_0_r. apply entering; lra.
  - rewrite (behind t) by lra. unfold Rminus at 1. rewrite Rplus_0_l, Rabs_Ropp, (Rabs_minus_sym t). apply entering; lra.
  - rewrite !behind by lra. rewrite Rminus_0_r, Rabs_R0. apply Rmult_le_pos; [apply C_pos|apply Rabs_pos].
Qed.
End P.
(** ** exposures *)
Lemma mean_close nodes weights f g t t' e d : length nodes = length weights -> List.Forall (fun w => 0 < w) weights ->
  (forall x, Rabs (f (t + e * x) - g (t' + e * x)) <= d) -> Rabs (node_mean nodes weights f t e - node_mean nodes weights g t' e) <= d * fold_right Rplus 0 weights.
Proof.
  revert weights. induction nodes as [|x nodes IH]; intros [|w weights] L W H; try discriminate L.
  - cbn. rewrite Rminus_0_r, Rabs_R0. lra.
  - inversion W; subst. cbn [node_mean]. unfold node_mean in *. cbn. injection L as L. specialize (IH weights L H3 H).
    set (a := fold_right _ _ _) in IH at 1. set (b := fold_right _ _ _) in IH at 1. fold a b.
    replace (w * f (t + e * x) + a - (w * g (t' + e * x) + b)) with (w * (f (t + e * x) - g (t' + e * x)) + (a - b)) by ring.
    eapply Rle_trans; [apply Rabs_triang|]. rewrite Rabs_mult, (Rabs_pos_eq w) by lra. assert (Hx := H x). apply (Rmult_le_compat_l w) in Hx; lra.
Qed.
Lemma curves_close u1 u2 A ld n P rst r rs r' rs' N t ts t' ts' texp es osam order (d : nat -> nat -> R) : disk_flux u1 u2 <> 0 -> answers A ld n P -> planet_numbers n (oa_r_star A) rst -> (forall j, (j < n)%nat -> 0 < rst j) ->
  elements n r rs -> elements n r' rs' -> is_vector N t -> (forall m, (m < N)%nat -> aget t (at_time m) = Fin (ts m)) -> is_vector N t' -> (forall m, (m < N)%nat -> aget t' (at_time m) = Fin (ts' m)) ->
  opt_exposures N texp es -> (texp <> None -> exists nodes weights, stencil osam order = Ok (nodes, weights)) ->
  (forall m j y, (m < N)%nat -> (j < n)%nat -> Rabs (flux_at u1 u2 (P j (ts m + y)) (rs j) (rst j) - flux_at u1 u2 (P j (ts' m + y)) (rs' j) (rst j)) <= d m j) ->
  close_tables n N (get_light_curve (ld_init (Fin u1) (Fin u2)) (Some A) (Some r) (Some t) texp osam order (Some false) ld)
    (get_light_curve (ld_init (Fin u1) (Fin u2)) (Some A) (Some r') (Some t') texp osam order (Some false) ld) d.
Proof.
  intros Hd HA Hs Hp Hr Hr' Ht Hts Ht' Hts' He Hst H.
  destruct (curve_of u1 u2 A ld n P rst r rs N t ts texp es osam order Hd HA Hs Hp Hr Ht Hts He Hst) as (X & f & EX & TX & F).
  destruct (curve_of u1 u2 A ld n P rst r' rs' N t' ts' texp es osam order Hd HA Hs Hp Hr' Ht' Hts' He Hst) as (X' & f' & EX' & TX' & F').
  exists X, X', f, f'. split; [exact EX|]. split; [exact EX'|]. split; [exact TX|]. split; [exact TX'|]. intros m j Hm Hj.
  destruct texp as [e|].
  - destruct F as (nodes & weights & St & F). destruct F' as (nodes' & weights' & St' & F'). rewrite St in St'. injection St' as <- <-. rewrite F, F'.
    destruct (quadrature _ _ _ _ St) as (Ln & _ & _ & Wp & W1 & _). replace (d m j) with (d m j * fold_right Rplus 0 weights) by (rewrite W1; ring).
    apply mean_close; [exact Ln|exact Wp|]. intro x. apply H; assumption.
  - rewrite F, F'. assert (Q := H m j 0 Hm Hj). rewrite !Rplus_0_r in Q. exact Q.
Qed.
