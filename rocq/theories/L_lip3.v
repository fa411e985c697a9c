(** * Light curves of the orbits change steadily *)
From Coq Require Import Reals Lra Lia Psatz List Bool Arith ZArith.
From Coquelicot Require Import Coquelicot.
From Verif Require Import Num CoreOps Inst CoreFlux M_units M_kepler M_fin M_tensor M_limbdark M_simple M_ttv Spec_orbit Spec_params Spec_array Spec_light Spec_simple Spec_depth Spec_delay Spec_lip
  L_real L_flux L_orbit L_motion L_pmotion5 L_delay L_area L_depth L_lip L_light1 L_light4 L_light7 L_light8 L_depth2 L_depth3 L_depth4 L_simple L_simple2 L_lip2.
Import ListNotations.
Open Scope R_scope.

Section K.
Variables (k : consts) (x : kargs R) (o : orbit R).
Hypothesis kok : consts_ok k.
Hypothesis Hinit : kep_init k x = Ok o.
Hypothesis Hph : physical o.
Let F := kep_init_facts k kok x o Hinit Hph.
Local Notation P := (fun t => pos k o Relative t None false).
Lemma speed_peak t : dot (vel o Relative t) (vel o Relative t) <= peak_speed o * peak_speed o.
Proof.
  destruct (peak_sq k kok x o Hinit Hph) as [-> _].
  destruct (conserved_quantities k x o t kok Hinit Hph) as [E _]. destruct (distance_law k x o t kok Hinit Hph) as (_ & _ & _ & [B _] & _). cbv zeta in E, B.
  set (v2 := dot _ _) in *. set (d := norm _) in *. assert (He := eo_bound o Hph). unfold eo in He. assert (Ha := ph_a _ Hph).
  assert (Hn := n_pos k kok x o Hinit Hph). assert (K3 := of_kepler3 _ _ _ F). assert (En := of_n _ _ _ F). assert (Hp := ph_period _ Hph). assert (Hpi := PI_RGT_0).
  set (mu := G_grav k * o_m_total o) in *.
  assert (Mu : mu = o_n o * o_n o * (o_a o * o_a o * o_a o)).
  { rewrite En. apply (Rmult_eq_reg_r (o_period o * o_period o)); [|nra]. rewrite K3. field. lra. }
  assert (M0 : 0 < mu) by (rewrite Mu; repeat apply Rmult_lt_0_compat; lra).
  set (e := ecc_of o) in *. set (a := o_a o) in *. assert (A1 : 0 < a * (1 - e)) by (apply Rmult_lt_0_compat; lra).
  assert (Q : mu / d <= mu / (a * (1 - e))) by (apply Rmult_le_compat_l; [lra|apply Rinv_le_contravar; assumption]).
  replace (o_n o * o_n o * (a * a) * ((1 + e) / (1 - e))) with (2 * (mu / (a * (1 - e)) - mu / (2 * a))); [lra|].
  rewrite Mu. field. split; lra.
Qed.
Lemma plane_lip t t' : let dx := vx (P t) - vx (P t') in let dy := vy (P t) - vy (P t') in dx * dx + dy * dy <= peak_speed o * Rabs (t - t') * (peak_speed o * Rabs (t - t')).
Proof.
  intros dx dy. assert (V0 := proj2 (peak_sq k kok x o Hinit Hph)). set (V := peak_speed o) in *.
  set (D := sqrt (dx * dx + dy * dy)). assert (S0 : 0 <= dx * dx + dy * dy) by (apply Rplus_le_le_0_compat; apply Rle_0_sqr). assert (DD := sqrt_sqrt _ S0). fold D in DD. assert (D0 : 0 <= D) by apply sqrt_pos.
  set (h := fun s => dx * vx (P s) + dy * vy (P s)).
  assert (Hh : forall s, is_derive h s (dx * vx (vel o Relative s) + dy * vy (vel o Relative s))).
  { intro s. destruct (velocity_is_derivative k x o Relative s kok Hinit Hph) as (X & Y & _).
    apply (is_derive_plus (fun s => dx * vx (P s)) (fun s => dy * vy (P s))); apply is_derive_scal; assumption. }
  assert (B : forall s, Rabs (dx * vx (vel o Relative s) + dy * vy (vel o Relative s)) <= D * V).
  { intro s. assert (Sp := speed_peak s). fold V in Sp. unfold dot in Sp. set (p := vx (vel o Relative s)) in *. set (q := vy (vel o Relative s)) in *. set (w := vz (vel o Relative s)) in *.
    assert (0 <= w * w) by apply Rle_0_sqr. apply Rsqr_incr_0_var; [|nra]. rewrite <- Rsqr_abs. unfold Rsqr.
    replace (D * V * (D * V)) with ((D * D) * (V * V)) by ring. rewrite DD.
    assert (0 <= (dx * q - dy * p) * (dx * q - dy * p)) by apply Rle_0_sqr.
    apply Rle_trans with ((dx * dx + dy * dy) * (p * p + q * q)); [nra|]. apply Rmult_le_compat_l; lra. }
  assert (M : Rabs (h t - h t') <= D * V * Rabs (t - t')).
  { destruct (MVT_gen h t' t (fun s => dx * vx (vel o Relative s) + dy * vy (vel o Relative s))) as (s & _ & E).
    - intros s _. apply Hh.
    - intros s _. apply continuity_pt_filterlim. apply (ex_derive_continuous (V := R_NormedModule)). eexists. apply Hh.
    - rewrite E, Rabs_mult. apply Rmult_le_compat_r; [apply Rabs_pos|apply B]. }
  assert (E : h t - h t' = D * D) by (rewrite DD; unfold h, dx, dy; ring). rewrite E, Rabs_pos_eq in M by nra.
  assert (T0 := Rabs_pos (t - t')). assert (L : D <= V * Rabs (t - t')).
  { destruct (Rle_lt_or_eq_dec 0 D D0) as [l|l]; [|rewrite <- l; apply Rmult_le_pos; lra]. apply (Rmult_le_reg_l D); [exact l|]. lra. }
  rewrite <- DD. apply Rmult_le_compat; assumption.
Qed.
Lemma apart_lip t t' : Rabs (apart (P t) - apart (P t')) <= peak_speed o * Rabs (t - t').
Proof.
  assert (L := plane_lip t t'). cbv zeta in L. assert (V0 := proj2 (peak_sq k kok x o Hinit Hph)). assert (T0 := Rabs_pos (t - t')). set (W := peak_speed o * Rabs (t - t')) in *. assert (W0 : 0 <= W) by (apply Rmult_le_pos; lra).
  assert (G : forall a b c d, (a - c) * (a - c) + (b - d) * (b - d) <= W * W -> sqrt (a * a + b * b) <= sqrt (c * c + d * d) + W).
  { intros a b c d H. set (S := sqrt (c * c + d * d)). assert (S0 : 0 <= S) by apply sqrt_pos. assert (N : 0 <= c * c + d * d) by (apply Rplus_le_le_0_compat; apply Rle_0_sqr). assert (SS := sqrt_sqrt _ N). fold S in SS.
    rewrite <- (sqrt_square (S + W)) by lra. apply sqrt_le_1_alt.
    assert (CS : c * (a - c) + d * (b - d) <= S * W).
    { apply Rsqr_incr_0_var; [|apply Rmult_le_pos; assumption]. unfold Rsqr. set (u := a - c) in *. set (v := b - d) in *.
      replace (S * W * (S * W)) with ((S * S) * (W * W)) by ring. rewrite SS. assert (0 <= (c * v - d * u) * (c * v - d * u)) by apply Rle_0_sqr.
      apply Rle_trans with ((c * c + d * d) * (u * u + v * v)); [nra|]. apply Rmult_le_compat_l; lra. }
    nra. }
  unfold apart. assert (G1 := G _ _ _ _ L).
  assert (L' : (vx (P t') - vx (P t)) * (vx (P t') - vx (P t)) + (vy (P t') - vy (P t)) * (vy (P t') - vy (P t)) <= W * W) by lra. assert (G2 := G _ _ _ _ L').
  apply Rabs_le. lra.
Qed.
Lemma kepler_steady u1 u2 r t t' : disk_flux u1 u2 <> 0 -> 0 <= r -> o_r_star o + r <= o_a o * (1 - ecc_of o) ->
  Rabs (flux_at u1 u2 (P t) r (o_r_star o) - flux_at u1 u2 (P t') r (o_r_star o)) <= weight u1 u2 * (4 * (r / o_r_star o) * (peak_speed o / o_r_star o)) * Rabs (t - t').
Proof.
  intros Hd Hr Ha. apply (path_steady u1 u2 r (o_r_star o) (peak_speed o) P Hd (ph_r_star _ Hph) Hr apart_lip).
  - intro s. apply continuity_pt_filterlim. apply (ex_derive_continuous (V := R_NormedModule)). destruct (velocity_is_derivative k x o Relative s kok Hinit Hph) as (_ & _ & Z). eexists. exact Z.
  - intros s Z. destruct (distance_law k x o s kok Hinit Hph) as (_ & _ & _ & [B _] & _). cbv zeta in B. eapply Rle_trans; [exact Ha|]. eapply Rle_trans; [exact B|].
    unfold norm, dot, apart. rewrite Z. right. f_equal. ring.
Qed.
End K.
Lemma light_steady : forall u1 u2 k n (x : kargs tens) xs os o cp r rs N t ts t' ts' texp es osam order,
  disk_flux u1 u2 <> 0 -> consts_ok k -> system k n x xs os -> kep_init k x = Ok o ->
  elements n r rs -> (forall j, (j < n)%nat -> 0 <= rs j /\ o_r_star (os j) + rs j <= o_a (os j) * (1 - ecc_of (os j))) ->
  is_vector N t -> (forall m, (m < N)%nat -> aget t (at_time m) = Fin (ts m)) ->
  is_vector N t' -> (forall m, (m < N)%nat -> aget t' (at_time m) = Fin (ts' m)) ->
  opt_exposures N texp es -> (texp <> None -> exists nodes weights, stencil osam order = Ok (nodes, weights)) ->
  close_tables n N (get_light_curve (ld_init (Fin u1) (Fin u2)) (Some (kep_api k cp o)) (Some r) (Some t) texp osam order (Some false) false)
    (get_light_curve (ld_init (Fin u1) (Fin u2)) (Some (kep_api k cp o)) (Some r) (Some t') texp osam order (Some false) false)
    (fun m j => weight u1 u2 * (4 * (rs j / o_r_star (os j)) * (peak_speed (os j) / o_r_star (os j))) * Rabs (ts m - ts' m)).
Proof.
  intros u1 u2 k n x xs os o cp r rs N t ts t' ts' texp es osam order Hd kok sys Ho Hr Hout Ht Hts Ht' Hts' He Hst.
  destruct (kepler_answers k n x xs os o cp kok sys Ho) as [HA Hs].
  apply (curves_close u1 u2 _ false n _ _ r rs r rs N t ts t' ts' texp es osam order _ Hd HA Hs); try assumption.
  - intros j Hj. apply (ph_r_star _ (sy_phys _ _ _ _ _ sys j Hj)).
  - intros m j y Hm Hj. destruct (Hout j Hj) as [R0 Q]. 
    assert (S := kepler_steady k (xs j) (os j) kok (sy_init _ _ _ _ _ sys j Hj) (sy_phys _ _ _ _ _ sys j Hj) u1 u2 (rs j) (ts m + y) (ts' m + y) Hd R0 Q).
    replace (ts m + y - (ts' m + y)) with (ts m - ts' m) in S by ring. exact S.
Qed.
Lemma light_steady_r : forall u1 u2 A ld n P rst r rs r' rs' N t ts texp es osam order,
  disk_flux u1 u2 <> 0 -> answers A ld n P -> planet_numbers n (oa_r_star A) rst -> (forall j, (j < n)%nat -> 0 < rst j) ->
  elements n r rs -> elements n r' rs' ->
  is_vector N t -> (forall m, (m < N)%nat -> aget t (at_time m) = Fin (ts m)) -> opt_exposures N texp es -> (texp <> None -> exists nodes weights, stencil osam order = Ok (nodes, weights)) ->
  close_tables n N (get_light_curve (ld_init (Fin u1) (Fin u2)) (Some A) (Some r) (Some t) texp osam order (Some false) ld)
    (get_light_curve (ld_init (Fin u1) (Fin u2)) (Some A) (Some r') (Some t) texp osam order (Some false) ld)
    (fun m j => weight u1 u2 * Rabs ((rs j / rst j) ^ 2 - (rs' j / rst j) ^ 2)).
Proof.
  intros u1 u2 A ld n P rst r rs r' rs' N t ts texp es osam order Hd HA Hs Hp Hr Hr' Ht Hts He Hst.
  apply (curves_close u1 u2 _ ld n _ _ r rs r' rs' N t ts t ts texp es osam order _ Hd HA Hs); try assumption.
  intros m j y Hm Hj. unfold flux_at. replace ((rs j / rst j) ^ 2) with (rs j / rst j * (rs j / rst j)) by ring. replace ((rs' j / rst j) ^ 2) with (rs' j / rst j * (rs' j / rst j)) by ring. apply rel_lip_r. exact Hd.
Qed.
(** ** SimpleTransitOrbit *)
Section T.
Variable x : sargs R.
Hypothesis ok : simple_ok x.
Local Notation b := (dflt 0 (sa_b x)).
Local Notation rs := (dflt 1 (sa_r_star x)).
Local Notation ror := (dflt 0 (sa_ror x)).
Local Notation D := (sa_duration x).
Lemma sdt_near t (q : Z) : Rabs (sdt x t) <= Rabs (t - smid x q).
Proof.
  destruct (Rle_dec (Rabs (sdt x t)) (Rabs (t - smid x q))) as [h|h]; [exact h|exfalso]. assert (HP := so_period _ ok).
  assert (A : Rabs (sdt x t) < Rabs (sdt x t)); [|lra]. apply sdt_lt; [exact HP|]. exists q. lra.
Qed.
Lemma sdt_lip t t' : Rabs (sdt x t) <= Rabs (sdt x t') + Rabs (t - t').
Proof.
  apply Rnot_lt_le. intro H. assert (HP := so_period _ ok). assert (A : Rabs (sdt x t') < Rabs (sdt x t) - Rabs (t - t')) by lra. apply sdt_lt in A; [|exact HP]. destruct A as (q & A).
  assert (B := sdt_near t q). replace (t - smid x q) with ((t - t') + (t' - smid x q)) in B by ring. assert (C := Rabs_triang (t - t') (t' - smid x q)). lra.
Qed.
Definition reach (s : R) : R := sqrt (sspeed x * s * (sspeed x * s) + b * rs * (b * rs)).
Lemma reach_lip s s' : 0 <= s -> 0 <= s' -> Rabs (reach s - reach s') <= sspeed x * Rabs (s - s').
Proof.
  assert (K : forall s s', 0 <= s <= s' -> 0 <= reach s' - reach s <= sspeed x * (s' - s)).
  { clear s s'. intros s s' H. assert (V0 := sspeed_pos x ok). unfold reach. set (V := sspeed x) in *. set (c := b * rs). assert (C0 : 0 <= c * c) by apply Rle_0_sqr.
    assert (P1 : 0 <= V * s) by (apply Rmult_le_pos; lra). assert (P2 : V * s <= V * s') by (apply Rmult_le_compat_l; lra). split.
    - assert (sqrt (V * s * (V * s) + c * c) <= sqrt (V * s' * (V * s') + c * c)) by (apply sqrt_le_1_alt; nra). lra.
    - set (S := sqrt (V * s * (V * s) + c * c)). assert (S0 : 0 <= S) by apply sqrt_pos. assert (SS : S * S = V * s * (V * s) + c * c) by (apply sqrt_sqrt; nra). assert (SV : V * s <= S) by (apply Rsqr_incr_0_var; [unfold Rsqr; lra|exact S0]).
      assert (sqrt (V * s' * (V * s') + c * c) <= S + V * (s' - s)); [|lra]. rewrite <- (sqrt_square (S + V * (s' - s))) by nra. apply sqrt_le_1_alt. nra. }
  intros H H'. destruct (Rle_dec s s') as [h|h].
  - assert (Q := K s s' (conj H h)). rewrite !Rabs_left1 by lra. lra.
  - assert (Q := K s' s ltac:(lra)). rewrite !Rabs_pos_eq by lra. lra.
Qed.
Lemma simple_front u1 u2 r t : disk_flux u1 u2 <> 0 -> 0 <= r <= ror * rs -> flux_at u1 u2 (spos x t) r rs = rel_flux u1 u2 (reach (Rabs (sdt x t)) / rs) (r / rs) 1.
Proof.
  intros Hd Hr. assert (HR := so_r_star _ ok). assert (HD := so_duration _ ok). unfold flux_at. rewrite spos_eq. unfold vx, vy, vz. cbn [fst snd].
  assert (E : sqrt (sspeed x * sdt x t * (sspeed x * sdt x t) + (b * rs + 0) * (b * rs + 0)) = reach (Rabs (sdt x t))).
  { unfold reach. f_equal. rewrite Rplus_0_r. f_equal. replace (sspeed x * Rabs (sdt x t) * (sspeed x * Rabs (sdt x t))) with (sspeed x * sspeed x * (Rabs (sdt x t) * Rabs (sdt x t))) by ring.
    rewrite <- Rabs_mult, (Rabs_pos_eq (sdt x t * sdt x t)) by apply Rle_0_sqr. ring. }
  match goal with |- rel_flux _ _ (?q / _) _ _ = _ => replace q with (reach (Rabs (sdt x t))) by (symmetry; exact E) end.
  destruct (Rltb (Rabs (sdt x t)) (0.5 * D)) eqn:B.
  - unfold rel_flux. assert (0 < 1 / rs) by (apply Rdiv_lt_0_compat; lra). destruct (Rlt_dec 0 (1 / rs)); [|contradiction]. destruct (Rlt_dec 0 1); [reflexivity|lra].
  - apply Rltb_false in B. set (s := Rabs (sdt x t)) in *. replace 0.5 with (/ 2) in B by lra. assert (Out : 1 + Rabs (r / rs) <= Rabs (reach s / rs)).
    { assert (R0 : 0 <= reach s) by apply sqrt_pos. rewrite !Rabs_pos_eq by (apply Rdiv_le_0_compat; lra). apply (Rmult_le_reg_r rs); [exact HR|].
      replace ((1 + r / rs) * rs) with (rs + r) by (field; lra). replace (reach s / rs * rs) with (reach s) by (field; lra).
      apply Rle_trans with (rs * (1 + ror)); [lra|]. rewrite <- (sqrt_square (rs * (1 + ror))) by nra. apply sqrt_le_1_alt.
      assert (Q := sspeed_sq x ok). assert (S2 : D * D <= 4 * (s * s)) by nra. assert (V2 := Rle_0_sqr (sspeed x)). unfold Rsqr in V2.
      assert (T : sspeed x * sspeed x * (D * D) <= sspeed x * sspeed x * (4 * (s * s))) by (apply Rmult_le_compat_l; assumption). rewrite Q in T.
      replace (rs * (1 + ror) * (rs * (1 + ror))) with (rs * rs * ((1 + ror) * (1 + ror) - b * b) + b * rs * (b * rs)) by ring. lra. }
    rewrite !rel_flux_out; try assumption; try reflexivity; left; exact Out.
Qed.
Lemma sspeed_chord : sspeed x = chord_speed x.
Proof.
  assert (HR := so_r_star _ ok). unfold sspeed, chord_speed. cbv zeta. rewrite sqrt_mult by (try nra; apply (s_arg x ok)). rewrite sqrt_square by lra. reflexivity.
Qed.
Lemma simple_steady u1 u2 r t t' : disk_flux u1 u2 <> 0 -> 0 <= r <= ror * rs ->
  Rabs (flux_at u1 u2 (spos x t) r rs - flux_at u1 u2 (spos x t') r rs) <= weight u1 u2 * (4 * (r / rs) * (chord_speed x / rs)) * Rabs (t - t').
Proof.
  intros Hd Hr. rewrite !simple_front by assumption. assert (HR := so_r_star _ ok). assert (W := weight_pos u1 u2 Hd). rewrite <- sspeed_chord. assert (V0 := sspeed_pos x ok).
  set (s := Rabs (sdt x t)). set (s' := Rabs (sdt x t')). assert (S0 : 0 <= s) by apply Rabs_pos. assert (S0' : 0 <= s') by apply Rabs_pos.
  assert (L : Rabs (s - s') <= Rabs (t - t')).
  { assert (A := sdt_lip t t'). assert (B := sdt_lip t' t). fold s s' in A, B. rewrite (Rabs_minus_sym t' t) in B. apply Rabs_le. lra. }
  eapply Rle_trans; [apply rel_lip; [exact Hd|lra|lra]|]. rewrite (Rmult_assoc (weight u1 u2)). apply Rmult_le_compat_l; [lra|].
  assert (R1 : 0 <= reach s) by apply sqrt_pos. assert (R2 : 0 <= reach s') by apply sqrt_pos. assert (R0 : 0 <= r / rs) by (apply Rdiv_le_0_compat; lra).
  rewrite (Rabs_pos_eq (r / rs)), (Rabs_pos_eq (reach s / rs)), (Rabs_pos_eq (reach s' / rs)) by (try assumption; apply Rdiv_le_0_compat; lra).
  rewrite (Rmult_assoc (4 * (r / rs))). apply Rmult_le_compat_l; [lra|].
  replace (reach s / rs - reach s' / rs) with ((reach s - reach s') * / rs) by (field; lra). rewrite Rabs_mult, (Rabs_pos_eq (/ rs)) by (left; apply Rinv_0_lt_compat; exact HR).
  replace (sspeed x / rs * Rabs (t - t')) with (sspeed x * Rabs (t - t') * / rs) by (field; lra). apply Rmult_le_compat_r; [left; apply Rinv_0_lt_compat; exact HR|].
  eapply Rle_trans; [apply reach_lip; assumption|]. apply Rmult_le_compat_l; assumption.
Qed.
End T.
Lemma simple_light_steady : forall u1 u2 n x xs r rs N t ts t' ts' texp es osam order,
  disk_flux u1 u2 <> 0 -> simple_system n x xs -> (forall j, (j < n)%nat -> simple_ok (xs j)) ->
  elements n r rs -> (forall j, (j < n)%nat -> 0 <= rs j <= dflt 0 (sa_ror (xs j)) * dflt 1 (sa_r_star (xs j))) ->
  is_vector N t -> (forall m, (m < N)%nat -> aget t (at_time m) = Fin (ts m)) ->
  is_vector N t' -> (forall m, (m < N)%nat -> aget t' (at_time m) = Fin (ts' m)) ->
  opt_exposures N texp es -> (texp <> None -> exists nodes weights, stencil osam order = Ok (nodes, weights)) ->
  close_tables n N (get_light_curve (ld_init (Fin u1) (Fin u2)) (Some (simple_api (simple_init x))) (Some r) (Some t) texp osam order (Some false) false)
    (get_light_curve (ld_init (Fin u1) (Fin u2)) (Some (simple_api (simple_init x))) (Some r) (Some t') texp osam order (Some false) false)
    (fun m j => weight u1 u2 * (4 * (rs j / dflt 1 (sa_r_star (xs j))) * (chord_speed (xs j) / dflt 1 (sa_r_star (xs j)))) * Rabs (ts m - ts' m)).
Proof.
  intros u1 u2 n x xs r rs N t ts t' ts' texp es osam order Hd sys ok Hr Hle Ht Hts Ht' Hts' He Hst.
  destruct (simple_answers n x xs sys ok) as [HA Hs].
  apply (curves_close u1 u2 _ false n _ _ r rs r rs N t ts t' ts' texp es osam order _ Hd HA Hs); try assumption.
  - intros j Hj. apply (so_r_star _ (ok j Hj)).
  - intros m j y Hm Hj. assert (S := simple_steady (xs j) (ok j Hj) u1 u2 (rs j) (ts m + y) (ts' m + y) Hd (Hle j Hj)).
    replace (ts m + y - (ts' m + y)) with (ts m - ts' m) in S by ring. exact S.
Qed.
