(** * Exposure means and interpolation of the light curves of orbits *)
From Coq Require Import Reals Lra Lia Psatz List Bool Arith ZArith.
From Coquelicot Require Import Coquelicot.
From Verif Require Import Num CoreOps Inst CoreFlux M_units M_kepler M_fin M_tensor M_limbdark M_simple M_ttv M_interpolated M_compose Spec_orbit Spec_params Spec_array Spec_light Spec_simple Spec_depth Spec_delay Spec_interp Spec_lip Spec_accuracy
  L_real L_flux L_orbit L_delay L_light1 L_light2 L_light4 L_light7 L_light8 L_depth2 L_depth3 L_simple L_simple2 L_lip L_params3 L_lip2 L_lip3 L_interp2 L_interp3 L_transit4 L_compose.
Import ListNotations.
Open Scope R_scope.

Lemma steady_cont f L : (forall s s', Rabs (f s - f s') <= L * Rabs (s - s')) -> continuity f.
Proof.
  intros H s. intros eps He. assert (L0 := Rabs_pos L). exists (eps / (1 + Rabs L)). split; [apply Rdiv_lt_0_compat; lra|].
  intros y [_ Hy]. cbn in *. unfold R_dist in *. assert (H1 := H y s). assert (H2 := Rle_abs L). assert (H3 := Rabs_pos (y - s)).
  apply Rle_lt_trans with (Rabs L * Rabs (y - s)); [eapply Rle_trans; [exact H1|apply Rmult_le_compat_r; assumption]|].
  apply Rle_lt_trans with (Rabs L * (eps / (1 + Rabs L))); [apply Rmult_le_compat_l; lra|].
  replace eps with ((1 + Rabs L) * (eps / (1 + Rabs L))) at 2 by (field; lra). apply Rmult_lt_compat_r; [apply Rdiv_lt_0_compat; lra|lra].
Qed.
Lemma rule_bound osam order x w f L t e : stencil osam order = Ok (x, w) -> centred osam order -> 0 < e -> (forall s s', Rabs (f s - f s') <= L * Rabs (s - s')) ->
  Rabs (node_mean x w f t e - exposure_mean f t e) <= rule_error osam order L e.
Proof.
  intros St C He H. assert (L0 : 0 <= L). { assert (Q := H 1 0). assert (P := Rabs_pos (f 1 - f 0)). rewrite Rminus_0_r, Rabs_R1 in Q. lra. }
  assert (LD : lipschitz_during f L t e) by (intros s s' _ _; apply H).
  destruct (convergence osam order x w f L t e St He LD) as (C0 & C1 & C2).
  destruct (quadrature osam order x w St) as (_ & _ & Len & _).
  assert (Q : IZR osam <= INR (length x)).
  { rewrite INR_IZR_INZ. apply IZR_le. lia. }
  assert (Le : 0 <= L * e) by (apply Rmult_le_pos; lra).
  unfold rule_error. destruct C as [[-> O]|[[->| ->] O]]; cbn [Z.eqb]; apply IZR_le in O as O'.
  - eapply Rle_trans; [apply C0; reflexivity|]. apply Rmult_le_compat_l; [exact Le|]. apply Rinv_le_contravar; lra.
  - eapply Rle_trans; [apply C1; [reflexivity|exact O]|]. apply Rmult_le_compat_l; [exact Le|]. apply Rinv_le_contravar; lra.
  - eapply Rle_trans; [apply C2; [reflexivity|exact O]|]. apply Rmult_le_compat_l; [lra|]. apply Rinv_le_contravar; lra.
Qed.
Lemma centred_rule osam order : centred osam order -> exists x w, stencil osam order = Ok (x, w).
Proof. intro C. apply stencil_exists; destruct C as [[-> O]|[[->| ->] O]]; lia || (left; reflexivity) || (right; left; reflexivity) || (right; right; reflexivity). Qed.
Lemma accurate u1 u2 A ld n P rst r rs (L : nat -> R) : disk_flux u1 u2 <> 0 -> answers A ld n P -> planet_numbers n (oa_r_star A) rst -> (forall j, (j < n)%nat -> 0 < rst j) -> elements n r rs ->
  (forall j s s', (j < n)%nat -> Rabs (flux_at u1 u2 (P j s) (rs j) (rst j) - flux_at u1 u2 (P j s') (rs j) (rst j)) <= L j * Rabs (s - s')) ->
  let F j s := flux_at u1 u2 (P j s) (rs j) (rst j) in
  instantaneous n (fun t => get_light_curve (ld_init (Fin u1) (Fin u2)) (Some A) (Some r) (Some t) None 7 0 (Some false) ld) F /\
  forall N t ts e es osam order, is_vector N t -> (forall m, (m < N)%nat -> aget t (at_time m) = Fin (ts m)) -> exposures N e es -> (forall m, (m < N)%nat -> 0 < es m) -> centred osam order ->
    table_near n N (get_light_curve (ld_init (Fin u1) (Fin u2)) (Some A) (Some r) (Some t) (Some e) osam order (Some false) ld)
      (fun m j => exposure_mean (F j) (ts m) (es m)) (fun m j => rule_error osam order (L j) (es m)).
Proof.
  intros Hd HA Hs Hp Hr HL F. split; [split|].
  - intros N t ts Ht Hts. destruct (curve_of u1 u2 A ld n P rst r rs N t ts None (fun _ => 0) 7 0 Hd HA Hs Hp Hr Ht Hts (fun _ => eq_refl) ltac:(intro Q; contradiction Q; reflexivity)) as (X & f & EX & [TX TX'] & E).
    exists X. split; [exact EX|]. split; [exact TX|]. intros m j Hm Hj. rewrite TX' by assumption. rewrite E. reflexivity.
  - intros j Hj. apply (steady_cont _ (L j)). intros s s'. apply HL. exact Hj.
  - intros N t ts e es osam order Ht Hts He He0 C.
    destruct (curve_of u1 u2 A ld n P rst r rs N t ts (Some e) es osam order Hd HA Hs Hp Hr Ht Hts He (fun _ => centred_rule _ _ C)) as (X & f & EX & TX & (x & w & St & E)).
    exists X, f. split; [exact EX|]. split; [exact TX|]. intros m j Hm Hj. rewrite E. apply rule_bound; try assumption; [apply He0; exact Hm|]. intros s s'. apply HL. exact Hj.
Qed.
Lemma kepler_accurate : forall u1 u2 k n (x : kargs tens) xs os o cp r rs,
  disk_flux u1 u2 <> 0 -> consts_ok k -> system k n x xs os -> kep_init k x = Ok o ->
  elements n r rs -> (forall j, (j < n)%nat -> 0 <= rs j /\ o_r_star (os j) + rs j <= o_a (os j) * (1 - ecc_of (os j))) ->
  let curve t texp osam order := get_light_curve (ld_init (Fin u1) (Fin u2)) (Some (kep_api k cp o)) (Some r) (Some t) texp osam order (Some false) false in
  exists F, instantaneous n (fun t => curve t None 7%Z 0%Z) F /\
  forall N t ts e es osam order, is_vector N t -> (forall m, (m < N)%nat -> aget t (at_time m) = Fin (ts m)) -> exposures N e es -> (forall m, (m < N)%nat -> 0 < es m) -> centred osam order ->
    table_near n N (curve t (Some e) osam order) (fun m j => exposure_mean (F j) (ts m) (es m))
      (fun m j => rule_error osam order (steepest u1 u2 (rs j) (o_r_star (os j)) (peak_speed (os j))) (es m)).
Proof.
  intros u1 u2 k n x xs os o cp r rs Hd kok sys Ho Hr Hout curve.
  destruct (kepler_answers k n x xs os o cp kok sys Ho) as [HA Hs].
  eexists. apply (accurate u1 u2 _ false n _ _ r rs _ Hd HA Hs); try assumption.
  - intros j Hj. apply (ph_r_star _ (sy_phys _ _ _ _ _ sys j Hj)).
  - intros j s s' Hj. destruct (Hout j Hj) as [R0 Q].
    exact (kepler_steady k (xs j) (os j) kok (sy_init _ _ _ _ _ sys j Hj) (sy_phys _ _ _ _ _ sys j Hj) u1 u2 (rs j) s s' Hd R0 Q).
Qed.
Lemma simple_accurate : forall u1 u2 n x xs r rs,
  disk_flux u1 u2 <> 0 -> simple_system n x xs -> (forall j, (j < n)%nat -> simple_ok (xs j)) ->
  elements n r rs -> (forall j, (j < n)%nat -> 0 <= rs j <= dflt 0 (sa_ror (xs j)) * dflt 1 (sa_r_star (xs j))) ->
  let curve t texp osam order := get_light_curve (ld_init (Fin u1) (Fin u2)) (Some (simple_api (simple_init x))) (Some r) (Some t) texp osam order (Some false) false in
  exists F, instantaneous n (fun t => curve t None 7%Z 0%Z) F /\
  forall N t ts e es osam order, is_vector N t -> (forall m, (m < N)%nat -> aget t (at_time m) = Fin (ts m)) -> exposures N e es -> (forall m, (m < N)%nat -> 0 < es m) -> centred osam order ->
    table_near n N (curve t (Some e) osam order) (fun m j => exposure_mean (F j) (ts m) (es m))
      (fun m j => rule_error osam order (steepest u1 u2 (rs j) (dflt 1 (sa_r_star (xs j))) (chord_speed (xs j))) (es m)).
Proof.
  intros u1 u2 n x xs r rs Hd sys ok Hr Hle curve. destruct (simple_answers n x xs sys ok) as [HA Hs].
  eexists. apply (accurate u1 u2 _ false n _ _ r rs _ Hd HA Hs); try assumption.
  - intros j Hj. apply (so_r_star _ (ok j Hj)).
  - intros j s s' Hj. exact (simple_steady (xs j) (ok j Hj) u1 u2 (rs j) s s' Hd (Hle j Hj)).
Qed.
(** the default, which skips the times out of transit *)
Lemma default_accurate : forall u1 u2 k n (x : kargs tens) xs os o cp r rs,
  disk_flux u1 u2 <> 0 -> consts_ok k -> system k n x xs os -> kep_init k x = Ok o ->
  elements n r rs -> (forall j, (j < n)%nat -> ka_ecc (xs j) = None /\ 0 <= rs j /\ o_r_star (os j) + rs j < o_a (os j) /\ 0 <= o_sin_incl (os j)) ->
  let curve t texp osam order := get_light_curve (ld_init (Fin u1) (Fin u2)) (Some (kep_api k (lift_cp cp) o)) (Some r) (Some t) texp osam order None false in
  exists F, instantaneous n (fun t => curve t None 7%Z 0%Z) F /\
  forall N t ts e osam order, is_vector N t -> (forall m, (m < N)%nat -> aget t (at_time m) = Fin (ts m)) -> 0 < e -> centred osam order ->
    table_near n N (curve t (Some (scalar e)) osam order) (fun m j => exposure_mean (F j) (ts m) e)
      (fun m j => rule_error osam order (steepest u1 u2 (rs j) (o_r_star (os j)) (peak_speed (os j))) e).
Proof.
  intros u1 u2 k n x xs os o cp r rs Hd kok sys Ho Hr Hc curve.
  assert (Hout : forall j, (j < n)%nat -> 0 <= rs j /\ o_r_star (os j) + rs j <= o_a (os j) * (1 - ecc_of (os j))).
  { intros j Hj. destruct (Hc j Hj) as (E & R0 & A & _). split; [exact R0|]. unfold ecc_of.
    rewrite (proj2 (kep_circ k (xs j) (os j) (sy_init _ _ _ _ _ sys j Hj)) E). lra. }
  destruct (kepler_accurate u1 u2 k n x xs os o (lift_cp cp) r rs Hd kok sys Ho Hr Hout) as (F & [I1 I2] & B). cbv zeta in I1, B.
  exists F. split; [split; [|exact I2]|].
  - intros N t ts Ht Hts. destruct (I1 N t ts Ht Hts) as (X & EX & TX).
    destruct (masked_kepler u1 u2 k n x xs os o cp r rs N t ts None 7 0 Hd kok sys Ho Hr (fun j Hj => proj1 (proj2 (Hc j Hj))) Ht Hts) as (X' & Y' & g & E1 & E2 & T1 & T2); try lia.
    { cbn. lra. } { left. intros j Hj. destruct (Hc j Hj) as (U1 & U2 & U3 & U4). split; [exact U1|]. split; assumption. }
    cbn [one_texp option_map] in E1, E2. rewrite EX in E2. apply Ok_inj in E2. subst Y'. exists X'. split; [exact E1|].
    split; [apply T1|]. intros m j Hm Hj. rewrite (proj2 T1) by assumption. f_equal. apply (table_unique _ _ _ _ _ T2 TX); assumption.
  - intros N t ts e osam order Ht Hts He C.
    assert (EE : exposures N (scalar e) (fun _ => e)) by (split; [intros s0 _ i j _; reflexivity|left; split; [reflexivity|reflexivity]]).
    destruct (B N t ts (scalar e) (fun _ => e) osam order Ht Hts EE (fun _ _ => He) C) as (X & v & EX & TX & Bd).
    destruct (masked_kepler u1 u2 k n x xs os o cp r rs N t ts (Some e) osam order Hd kok sys Ho Hr (fun j Hj => proj1 (proj2 (Hc j Hj))) Ht Hts) as (X' & Y' & g & E1 & E2 & T1 & T2).
    { cbn. lra. } { destruct C as [[-> O]|[[->| ->] O]]; lia. } { destruct C as [[-> O]|[[->| ->] O]]; lia. }
    { left. intros j Hj. destruct (Hc j Hj) as (U1 & U2 & U3 & U4). split; [exact U1|]. split; assumption. }
    cbn [one_texp option_map] in E1, E2. rewrite EX in E2. apply Ok_inj in E2. subst Y'. exists X', g. split; [exact E1|]. split; [exact T1|].
    intros m j Hm Hj. rewrite (table_unique _ _ _ _ _ T2 TX m j Hm Hj). apply Bd; assumption.
Qed.
Lemma interpolated_accurate : forall u1 u2 k n (x : kargs tens) xs os o cp r rs use Q np tv N t ts,
  disk_flux u1 u2 <> 0 -> consts_ok k -> system k n x xs os -> kep_init k x = Ok o -> elements n r rs ->
  (forall j, (j < n)%nat -> 0 <= rs j /\ o_r_star (os j) + rs j <= o_a (os j) * (1 - ecc_of (os j))) ->
  use = false \/ (forall j, (j < n)%nat -> ka_ecc (xs j) = None /\ 0 <= rs j /\ o_r_star (os j) + rs j < o_a (os j) /\ 0 <= o_sin_incl (os j)) ->
  (0 <= Q)%Z -> counted np tv n ->
  ash (o_t0 o) = Ok (if Nat.leb n 1 then [] else [n]) -> ash (o_period o) = Ok (if Nat.leb n 1 then [] else [n]) ->
  is_vector N t -> (forall m, (m < N)%nat -> aget t (at_time m) = Fin (ts m)) ->
  close_tables n N (light_curve_of k (lift_cp cp) (Interpolated (LimbDark (ld_init (Fin u1) (Fin u2))) Q np) (Some (Keplerian o)) tv (Some r) (Some t) None 7 0 (Some use) false)
    (light_curve_of k (lift_cp cp) (LimbDark (ld_init (Fin u1) (Fin u2))) (Some (Keplerian o)) tv (Some r) (Some t) None 7 0 (Some use) false)
    (fun m j => 3 / 4 * steepest u1 u2 (rs j) (o_r_star (os j)) (peak_speed (os j)) * (o_period (os j) / IZR (Q + 1))).
Proof.
  intros u1 u2 k n x xs os o cp r rs use Q np tv N t ts Hd kok sys Ho Hr Hout Hu HQ HC S0 SP Ht Hts.
  rewrite (of_interpolated _ _ _ _ _ _ _ _ _ _ _ _ _ _ _ HC). cbn [any_t0 any_period light_curve_of option_map any_api].
  destruct (interp_kepler u1 u2 k n x xs os o cp r rs 7 0 use Q np tv Hd kok sys Ho Hr Hu HQ HC S0 SP) as [I PF].
  assert (HT : observed N t ts) by (split; [apply (proj2 Ht)|exact Hts]).
  destruct (interp_accuracy _ _ _ _ _ _ _ _ _ _ _ _ _ I HT PF) as (Y & v & HY & TY & H).
  destruct (lc_kepler u1 u2 k n x xs os o (lift_cp cp) r rs N t ts 7 0 Hd kok sys Ho Hr Ht Hts) as (X & HX & TX).
  assert (B : forall m j, (m < N)%nat -> (j < n)%nat -> Rabs (v m j - flux_at u1 u2 (pos k (os j) Relative (ts m) None false) (rs j) (o_r_star (os j))) <= 3 / 4 * steepest u1 u2 (rs j) (o_r_star (os j)) (peak_speed (os j)) * (o_period (os j) / IZR (Q + 1))).
  { intros m j Hm Hj. destruct (Hout j Hj) as [R0 A]. assert (Ph := sy_phys _ _ _ _ _ sys j Hj). assert (Hi := sy_init _ _ _ _ _ sys j Hj). apply H; try assumption.
    - assert (V0 := proj2 (peak_sq k kok (xs j) (os j) Hi Ph)). assert (HR := ph_r_star _ Ph). unfold steepest. assert (W := weight_pos u1 u2 Hd).
      apply Rmult_le_pos; [lra|]. apply Rmult_le_pos; [apply Rmult_le_pos; [lra|]|]; apply Rdiv_le_0_compat; lra.
    - intros s _. exact (kepler_steady k (xs j) (os j) kok Hi Ph u1 u2 (rs j) s (ts m) Hd R0 A). }
  exists Y. destruct use.
  - destruct Hu as [Hu|Hu]; [discriminate Hu|].
    destruct (masked_kepler u1 u2 k n x xs os o cp r rs N t ts None 7 0 Hd kok sys Ho Hr (fun j Hj => proj1 (proj2 (Hu j Hj))) Ht Hts) as (X' & Y' & g & E1 & E2 & T1 & T2); try lia.
    { cbn. lra. } { left. intros j Hj. destruct (Hu j Hj) as (U1 & U2 & U3 & U4). split; [exact U1|]. split; assumption. }
    cbn [one_texp option_map] in E1, E2. rewrite HX in E2. apply Ok_inj in E2. subst Y'. exists X', v, g.
    split; [exact HY|]. split; [exact E1|]. split; [exact TY|]. split; [exact T1|]. intros m j Hm Hj. rewrite (table_unique _ _ _ _ _ T2 TX m j Hm Hj). apply B; assumption.
  - exists X, v. eexists. split; [exact HY|]. split; [exact HX|]. split; [exact TY|]. split; [exact TX|]. intros m j Hm Hj. apply B; assumption.
Qed.
Lemma simple_interpolated_accurate : forall k cp u1 u2 n x xs tv r rs use Q np N t ts,
  disk_flux u1 u2 <> 0 -> simple_system n x xs -> (forall j, (j < n)%nat -> simple_ok (xs j)) -> elements n r rs ->
  (forall j, (j < n)%nat -> 0 <= rs j <= dflt 0 (sa_ror (xs j)) * dflt 1 (sa_r_star (xs j))) ->
  use = false \/ (forall j, (j < n)%nat -> Rabs (dflt 0 (sa_b (xs j))) < 1 + dflt 0 (sa_ror (xs j)) /\
     Rabs (dflt 0 (sa_b (xs j))) * dflt 1 (sa_r_star (xs j)) <> dflt 1 (sa_r_star (xs j)) + rs j) ->
  (0 <= Q)%Z -> counted np tv n ->
  ash (s_t0 (simple_init x)) = Ok (if Nat.leb n 1 then [] else [n]) -> ash (sa_period x) = Ok (if Nat.leb n 1 then [] else [n]) ->
  is_vector N t -> (forall m, (m < N)%nat -> aget t (at_time m) = Fin (ts m)) ->
  close_tables n N (light_curve_of k cp (Interpolated (LimbDark (ld_init (Fin u1) (Fin u2))) Q np) (Some (Simple (simple_init x))) tv (Some r) (Some t) None 7 0 (Some use) false)
    (light_curve_of k cp (LimbDark (ld_init (Fin u1) (Fin u2))) (Some (Simple (simple_init x))) tv (Some r) (Some t) None 7 0 (Some use) false)
    (fun m j => 3 / 4 * steepest u1 u2 (rs j) (dflt 1 (sa_r_star (xs j))) (chord_speed (xs j)) * (sa_period (xs j) / IZR (Q + 1))).
Proof.
  intros k cp u1 u2 n x xs tv r rs use Q np N t ts Hd sys ok Hr Hle Hu HQ HC S0 SP Ht Hts.
  assert (HT : observed N t ts) by (split; [apply (proj2 Ht)|exact Hts]).
  assert (Hu' : use = false \/ (forall j, (j < n)%nat -> 0 <= rs j /\ Rabs (dflt 0 (sa_b (xs j))) < 1 + dflt 0 (sa_ror (xs j)) /\
     Rabs (dflt 0 (sa_b (xs j))) * dflt 1 (sa_r_star (xs j)) <> dflt 1 (sa_r_star (xs j)) + rs j)).
  { destruct Hu as [Hu|Hu]; [left; exact Hu|right; intros j Hj; split; [apply Hle; exact Hj|apply Hu; exact Hj]]. }
  destruct (compose_simple k cp u1 u2 n x xs tv r rs 7 0 use Q np N t ts Hd sys ok Hr Hu' HQ HC HT S0 SP) as (Y & v & HY & TY & H).
  destruct (lc_simple_plain u1 u2 n x xs r rs N t ts 7 0 Hd sys ok Hr Ht Hts) as (X & HX & TX).
  assert (B : forall m j, (m < N)%nat -> (j < n)%nat -> Rabs (v m j - flux_at u1 u2 (spos (xs j) (ts m)) (rs j) (dflt 1 (sa_r_star (xs j)))) <= 3 / 4 * steepest u1 u2 (rs j) (dflt 1 (sa_r_star (xs j))) (chord_speed (xs j)) * (sa_period (xs j) / IZR (Q + 1))).
  { intros m j Hm Hj. destruct (H m j Hm Hj) as (_ & _ & H'). apply H'.
    - assert (V0 := sspeed_pos _ (ok j Hj)). rewrite (sspeed_chord _ (ok j Hj)) in V0. assert (HR := so_r_star _ (ok j Hj)). unfold steepest. assert (W := weight_pos u1 u2 Hd). assert (R0 := Hle j Hj).
      apply Rmult_le_pos; [lra|]. apply Rmult_le_pos; [apply Rmult_le_pos; [lra|]|]; apply Rdiv_le_0_compat; lra.
    - intros s _. exact (simple_steady (xs j) (ok j Hj) u1 u2 (rs j) s (ts m) Hd (Hle j Hj)). }
  exists Y. cbn [light_curve_of option_map any_api] in HY |- *. destruct use.
  - destruct Hu' as [Hu'|Hu']; [discriminate Hu'|].
    destruct (masked_simple u1 u2 n x xs r rs N t ts None 7 0 Hd sys ok Hr Ht Hts) as (X' & Y' & g & E1 & E2 & T1 & T2); try lia.
    { cbn. lra. } { exact Hu'. }
    cbn [one_texp option_map] in E1, E2. rewrite HX in E2. apply Ok_inj in E2. subst Y'. exists X', v, g.
    split; [exact HY|]. split; [exact E1|]. split; [exact TY|]. split; [exact T1|]. intros m j Hm Hj. rewrite (table_unique _ _ _ _ _ T2 TX m j Hm Hj). apply B; assumption.
  - exists X, v. eexists. split; [exact HY|]. split; [exact HX|]. split; [exact TY|]. split; [exact TX|]. intros m j Hm Hj. apply B; assumption.
Qed.
