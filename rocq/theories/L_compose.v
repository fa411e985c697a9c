(** * Light curves combined with orbits *)
From Coq Require Import Reals List Bool Arith ZArith Lra Lia.
From Verif Require Import Num CoreOps Inst CoreFlux M_units M_kepler M_fin M_tensor M_simple M_ttv M_limbdark M_secondary M_interpolated M_compose
  Spec_orbit Spec_params Spec_array Spec_simple Spec_ttv Spec_light Spec_secondary Spec_interp L_fl L_fl2 L_params3 L_real L_shape L_simple L_simple2 L_interp L_interp2 L_interp3
  L_transit3 L_transit6 L_pmotion5 L_light4 L_light7 L_light8 L_second2 L_ttv3 L_ttv7 L_ttv8 Ex_orbit Ex_system.
Import ListNotations.
Open Scope R_scope.

(** ** links to the models of the single classes *)
Lemma of_secondary k cp S o tv r t texp os order use ld :
  light_curve_of k cp (Secondary S) (Some (Keplerian o)) tv (Some r) t texp os order use ld = secondary_light_curve k cp S o r t texp os order use ld.
Proof. cbn [light_curve_of any_flip]. unfold secondary_light_curve. destruct (flip k o r); reflexivity. Qed.
Lemma of_interpolated k cp b Q np o tv n r t texp os order use ld : counted np tv n ->
  light_curve_of k cp (Interpolated b Q np) (Some o) tv r (Some t) texp os order use ld =
  interpolated_light_curve (fun x => light_curve_of k cp b (Some o) tv r (Some x) texp os order use ld) Q np tv (any_t0 o) (any_period o) t.
Proof. intro HC. destruct (counted_ok _ _ _ HC) as (z & Hz & _). cbn [light_curve_of]. rewrite Hz. reflexivity. Qed.

Lemma secondary_errors : forall k cp S tv r t texp os order use ld,
  (forall o, light_curve_of k cp (Secondary S) (Some (Timed o)) tv (Some r) t texp os order use ld = Err ValueError) /\
  (forall s, light_curve_of k cp (Secondary S) (Some (Simple s)) tv (Some r) t texp os order use ld = Err AttrErr) /\
  light_curve_of k cp (Secondary S) None tv (Some r) t texp os order use ld = Err AttrErr /\
  (forall o, light_curve_of k cp (Secondary S) o tv None t texp os order use ld = Err NotImpl).
Proof. intros. split; [reflexivity|split; [reflexivity|split; reflexivity]]. Qed.
Lemma no_orbit : forall k cp b Q tv r t texp os order use ld,
  light_curve_of k cp (Interpolated b Q None) None tv r t texp os order use ld = Err ValueError /\
  (forall z, light_curve_of k cp (Interpolated b Q (Some z)) None tv r t texp os order use ld = Err AttrErr).
Proof. intros. split; reflexivity. Qed.

(** ** TTVOrbit *)
Section T.
Variables (k : consts) (n : nat) (o : ttvorbit) (os : nat -> orbit R) (tts : nat -> list R).
Hypotheses (kok : consts_ok k) (sys : ttv_system k n o os tts).

Lemma ttv_vectors : exists d e, (n <= d)%nat /\ (n <= e)%nat /\ ash (o_t0 (tt_orbit o)) = Ok [d] /\ ash (o_period (tt_orbit o)) = Ok [e].
Proof.
  assert (Hn := n_pos k n o os tts sys). destruct (n_len k n o os tts sys) as [L _].
  destruct sys as [(x & Hx) _ _ _ _]. destruct (ttv_init_finish k x o Hx) as (F & L1 & _).
  destruct (finish_ok _ _ _ _ _ _ F) as (_ & _ & _ & _ & _ & _ & _ & A).
  destruct (nth_error (tt_inds o) (Nat.pred n)) as [z|] eqn:E; [|apply nth_error_None in E; lia].
  destruct (A _ _ E) as (t0 & p & _ & _ & _ & E1 & E2 & _). unfold tix in E1, E2.
  destruct (ash (o_t0 (tt_orbit o))) as [[|d [|]]|]; try discriminate E1. destruct (ash (o_period (tt_orbit o))) as [[|e [|]]|]; try discriminate E2.
  destruct (Nat.ltb_spec (Nat.pred n) d); [|discriminate E1]. destruct (Nat.ltb_spec (Nat.pred n) e); [|discriminate E2].
  exists d, e. split; [lia|]. split; [lia|]. split; reflexivity.
Qed.

Lemma ttv_described : (2 <= n)%nat -> described n (o_t0 (tt_orbit o)) (fun j => o_t0 (os j)) /\ described n (o_period (tt_orbit o)) (fun j => o_period (os j)).
Proof.
  intro H2. destruct (under k n o os tts sys) as (x & xs & Hx & Sy). destruct (kepler_described k n x xs os _ kok Sy Hx) as [D0 DP].
  destruct ttv_vectors as (d & e & Hd & He & E1 & E2). unfold described. destruct (Nat.leb_spec n 1); [lia|].
  split; (split; [|first [exact D0|exact DP]]); [exists d|exists e]; split; assumption.
Qed.

Lemma ttv_pointwise u1 u2 near cp tv r rs os' order use :
  disk_flux u1 u2 <> 0 -> nearest_transits n tts near -> elements n r rs ->
  use = false \/ (forall j, (j < n)%nat -> o_ecc (os j) = None /\ 0 <= rs j /\ o_r_star (os j) + rs j < o_a (os j) /\ 0 <= o_sin_incl (os j)) ->
  pointwise n (fun t => light_curve_of k (lift_cp cp) (LimbDark (ld_init (Fin u1) (Fin u2))) (Some (Timed o)) tv (Some r) (Some t) None os' order (Some use) false)
    (fun j s => flux_at u1 u2 (pos k (os j) Relative (orbit_time os near j s) None false) (rs j) (o_r_star (os j))).
Proof.
  intros Hd Hn Hr Hu l. destruct (avec_vector l) as [V1 V2]. cbn [light_curve_of option_map any_api].
  destruct (lc_ttv u1 u2 k n o os tts near (lift_cp cp) r rs _ _ _ os' order Hd kok sys Hn Hr V1 V2) as (X & HX & TX).
  destruct use; [|exists X; split; [exact HX|exact TX]]. destruct Hu as [Hu|Hu]; [discriminate Hu|].
  destruct (masked_ttv u1 u2 k n o os tts cp r rs _ _ _ None 0 0 Hd kok sys Hr (fun j Hj => proj1 (proj2 (Hu j Hj))) V1 V2) as (X' & Y' & g & E1 & E2 & T1 & T2).
  { cbn. lra. } { lia. } { left; reflexivity. }
  { left. intros j Hj. destruct (Hu j Hj) as (U1 & U2 & U3 & U4). split; [exact U1|]. split; assumption. }
  cbn [one_texp] in E1, E2. rewrite (lc_order_unused _ _ _ _ _ _ os' order) in E1. rewrite (lc_order_unused _ _ _ _ _ _ os' order) in E2.
  rewrite HX in E2. apply Ok_inj in E2. subst Y'. exists X'. split; [exact E1|].
  destruct T1 as [T1 T3]. split; [exact T1|]. intros m j Hm Hj. rewrite T3 by assumption. f_equal.
  apply (table_unique _ _ _ _ _ T2 TX); assumption.
Qed.

Lemma ttv_interpolating u1 u2 near cp tv r rs os' order use Q np :
  disk_flux u1 u2 <> 0 -> nearest_transits n tts near -> elements n r rs ->
  use = false \/ (forall j, (j < n)%nat -> o_ecc (os j) = None /\ 0 <= rs j /\ o_r_star (os j) + rs j < o_a (os j) /\ 0 <= o_sin_incl (os j)) ->
  (2 <= n)%nat -> (0 <= Q)%Z -> counted np tv n ->
  interpolating n (fun t => light_curve_of k (lift_cp cp) (LimbDark (ld_init (Fin u1) (Fin u2))) (Some (Timed o)) tv (Some r) (Some t) None os' order (Some use) false)
    Q np tv (o_t0 (tt_orbit o)) (o_period (tt_orbit o))
    (fun j s => flux_at u1 u2 (pos k (os j) Relative (orbit_time os near j s) None false) (rs j) (o_r_star (os j)))
    (fun j => o_t0 (os j)) (fun j => o_period (os j)).
Proof.
  intros Hd Hn Hr Hu H2 HQ HC. destruct (ttv_described H2) as [D0 DP].
  constructor; try assumption.
  - exists n. split; [lia|]. apply ttv_pointwise; assumption.
  - intros j Hj. destruct (under k n o os tts sys) as (x & xs & _ & Sy). apply (ph_period _ (sy_phys _ _ _ _ _ Sy j Hj)).
Qed.
End T.

Lemma compose_ttv : forall k n o os tts near cp u1 u2 tv r rs os' order use Q np N t ts,
  consts_ok k -> ttv_system k n o os tts -> nearest_transits n tts near -> disk_flux u1 u2 <> 0 -> elements n r rs ->
  use = false \/ (forall j, (j < n)%nat -> o_ecc (os j) = None /\ 0 <= rs j /\ o_r_star (os j) + rs j < o_a (os j) /\ 0 <= o_sin_incl (os j)) ->
  (2 <= n)%nat -> (0 <= Q)%Z -> counted np tv n -> observed N t ts ->
  exists Y v, light_curve_of k (lift_cp cp) (Interpolated (LimbDark (ld_init (Fin u1) (Fin u2))) Q np) (Some (Timed o)) tv (Some r) (Some t) None os' order (Some use) false = Ok Y /\
    light_table n N Y v /\
    forall m j, (m < N)%nat -> (j < n)%nat ->
      exists ph, phase (o_t0 (os j)) (o_period (os j)) (ts m) ph /\
        four_point (fun s => flux_at u1 u2 (pos k (os j) Relative (orbit_time os near j (o_t0 (os j) + s)) None false) (rs j) (o_r_star (os j)))
          (o_period (os j) / IZR (Q + 1)) ph (v m j).
Proof.
  intros k n o os tts near cp u1 u2 tv r rs os' order use Q np N t ts kok sys Hn Hd Hr Hu H2 HQ HC HT.
  rewrite (of_interpolated _ _ _ _ _ _ _ _ _ _ _ _ _ _ _ HC).
  apply (interpolates n _ Q np tv _ _ _ _ _ N t ts (ttv_interpolating k n o os tts kok sys u1 u2 near cp tv r rs os' order use Q np Hd Hn Hr Hu H2 HQ HC) HT).
Qed.

(** a transit that is displaced into the out-of-transit part of the folded light
    curve disappears *)
Lemma compose_ttv_lost : forall k n o os tts near cp u1 u2 tv r rs os' order use Q np N t ts m j ph,
  consts_ok k -> ttv_system k n o os tts -> nearest_transits n tts near -> disk_flux u1 u2 <> 0 -> elements n r rs ->
  use = false \/ (forall j, (j < n)%nat -> o_ecc (os j) = None /\ 0 <= rs j /\ o_r_star (os j) + rs j < o_a (os j) /\ 0 <= o_sin_incl (os j)) ->
  (2 <= n)%nat -> (0 <= Q)%Z -> counted np tv n -> is_vector N t -> observed N t ts ->
  (m < N)%nat -> (j < n)%nat -> 0 <= rs j -> In (ts m) (tts j) -> phase (o_t0 (os j)) (o_period (os j)) (ts m) ph ->
  (forall s, Rabs (s - (o_t0 (os j) + ph)) <= 2 * (o_period (os j) / IZR (Q + 1)) ->
     ~ overlaps (pos k (os j) Relative (orbit_time os near j s) None false) (rs j) (o_r_star (os j))) ->
  exists X Y, light_curve_of k (lift_cp cp) (LimbDark (ld_init (Fin u1) (Fin u2))) (Some (Timed o)) tv (Some r) (Some t) None os' order (Some use) false = Ok X /\
    light_curve_of k (lift_cp cp) (Interpolated (LimbDark (ld_init (Fin u1) (Fin u2))) Q np) (Some (Timed o)) tv (Some r) (Some t) None os' order (Some use) false = Ok Y /\
    aget X (at_tp m j) = Fin (flux_at u1 u2 (pos k (os j) Relative (o_t0 (os j)) None false) (rs j) (o_r_star (os j))) /\
    aget Y (at_tp m j) = Fin 0.
Proof.
  intros k n o os tts near cp u1 u2 tv r rs os' order use Q np N t ts m j ph kok sys Hn Hd Hr Hu H2 HQ HC HV HT Hm Hj Hrs Hin Hph Hout.
  destruct (compose_ttv k n o os tts near cp u1 u2 tv r rs os' order use Q np N t ts kok sys Hn Hd Hr Hu H2 HQ HC HT) as (Y & v & HY & [_ TY] & H).
  destruct (H m j Hm Hj) as (ph' & Hp' & Hf).
  assert (HP : 0 < o_period (os j)) by (destruct (under k n o os tts sys) as (x & xs & _ & Sy); apply (ph_period _ (sy_phys _ _ _ _ _ Sy j Hj))).
  assert (HR : 0 < o_r_star (os j)) by (destruct (under k n o os tts sys) as (x & xs & _ & Sy); apply (ph_r_star _ (sy_phys _ _ _ _ _ Sy j Hj))).
  assert (ph' = ph) by (apply (phase_unique _ _ _ _ _ HP Hp' Hph)). subst ph'.
  assert (S := step_pos (o_period (os j)) Q HP HQ). change (0 < o_period (os j) / IZR (Q + 1)) in S.
  assert (Z0 : forall s, Rabs (s - ph) <= 2 * (o_period (os j) / IZR (Q + 1)) ->
     flux_at u1 u2 (pos k (os j) Relative (orbit_time os near j (o_t0 (os j) + s)) None false) (rs j) (o_r_star (os j)) = cubic 0 0 0 0 s).
  { intros s Hs. rewrite not_overlap; try assumption; [unfold cubic; ring|]. apply Hout.
    replace (o_t0 (os j) + s - (o_t0 (os j) + ph)) with (s - ph) by ring. exact Hs. }
  assert (EV := four_exact _ _ _ _ 0 0 0 0 S Hf Z0). cbv beta in EV. rewrite Z0 in EV by (rewrite Rminus_eq_0, Rabs_R0; lra).
  assert (HX : exists X, light_curve_of k (lift_cp cp) (LimbDark (ld_init (Fin u1) (Fin u2))) (Some (Timed o)) tv (Some r) (Some t) None os' order (Some use) false = Ok X /\
     light_table n N X (fun m j => flux_at u1 u2 (pos k (os j) Relative (orbit_time os near j (ts m)) None false) (rs j) (o_r_star (os j)))).
  { cbn [light_curve_of option_map any_api]. destruct HT as [_ HT].
    destruct (lc_ttv u1 u2 k n o os tts near (lift_cp cp) r rs _ _ _ os' order Hd kok sys Hn Hr HV HT) as (X & HX & TX).
    destruct use; [|exists X; split; [exact HX|exact TX]]. destruct Hu as [Hu|Hu]; [discriminate Hu|].
    destruct (masked_ttv u1 u2 k n o os tts cp r rs _ _ _ None 0 0 Hd kok sys Hr (fun j Hj => proj1 (proj2 (Hu j Hj))) HV HT) as (X' & Y' & g & E1 & E2 & T1 & T2).
    { cbn. lra. } { lia. } { left; reflexivity. }
    { left. intros i Hi. destruct (Hu i Hi) as (U1 & U2 & U3 & U4). split; [exact U1|]. split; assumption. }
    cbn [one_texp] in E1, E2. rewrite (lc_order_unused _ _ _ _ _ _ os' order) in E1. rewrite (lc_order_unused _ _ _ _ _ _ os' order) in E2.
    rewrite HX in E2. apply Ok_inj in E2. subst Y'. exists X'. split; [exact E1|].
    destruct T1 as [T1 T3]. split; [exact T1|]. intros m' j' Hm' Hj'. rewrite T3 by assumption. f_equal.
    apply (table_unique _ _ _ _ _ T2 TX); assumption. }
  destruct HX as (X & HX & [_ TX]). exists X, Y. split; [exact HX|]. split; [exact HY|]. split.
  - rewrite (TX m j Hm Hj). do 2 f_equal. unfold orbit_time.
    assert (E : near j (ts m) = ts m).
    { destruct (Hn j (ts m) Hj) as [_ A]. destruct (A _ Hin) as [A1 _]. rewrite Rminus_eq_0, Rabs_R0 in A1.
      revert A1. unfold Rabs. destruct (Rcase_abs (ts m - near j (ts m))); lra. }
    rewrite E, Rminus_eq_0, Rplus_0_r. reflexivity.
  - rewrite (TY m j Hm Hj), EV. unfold cubic. f_equal. ring.
Qed.

Lemma compose_ttv_one : forall k o os tts cp b tv r texp os' order use ld Q np N t ts,
  consts_ok k -> ttv_system k 1 o os tts -> counted np tv 1 -> observed N t ts ->
  light_curve_of k cp (Interpolated b Q np) (Some (Timed o)) tv r (Some t) texp os' order use ld = Err AssertErr.
Proof.
  intros k o os tts cp b tv r texp os' order use ld Q np N t ts kok sys HC HT. rewrite (of_interpolated _ _ _ _ _ _ _ _ _ _ _ _ _ _ _ HC).
  destruct (ttv_vectors k 1 o os tts sys) as (d & e & _ & _ & E1 & _).
  apply (interp_one_vector _ _ _ _ _ _ N t ts d HC HT). left. exact E1.
Qed.

(** ** SimpleTransitOrbit *)
Lemma compose_simple : forall k cp u1 u2 n x xs tv r rs os' order use Q np N t ts,
  disk_flux u1 u2 <> 0 -> simple_system n x xs -> (forall j, (j < n)%nat -> simple_ok (xs j)) -> elements n r rs ->
  use = false \/ (forall j, (j < n)%nat -> 0 <= rs j /\ Rabs (dflt 0 (sa_b (xs j))) < 1 + dflt 0 (sa_ror (xs j)) /\
     Rabs (dflt 0 (sa_b (xs j))) * dflt 1 (sa_r_star (xs j)) <> dflt 1 (sa_r_star (xs j)) + rs j) ->
  (0 <= Q)%Z -> counted np tv n -> observed N t ts ->
  ash (s_t0 (simple_init x)) = Ok (if Nat.leb n 1 then [] else [n]) -> ash (sa_period x) = Ok (if Nat.leb n 1 then [] else [n]) ->
  let f j s := flux_at u1 u2 (spos (xs j) s) (rs j) (dflt 1 (sa_r_star (xs j))) in
  exists Y v, light_curve_of k cp (Interpolated (LimbDark (ld_init (Fin u1) (Fin u2))) Q np) (Some (Simple (simple_init x))) tv (Some r) (Some t) None os' order (Some use) false = Ok Y /\
    light_table n N Y v /\
    forall m j, (m < N)%nat -> (j < n)%nat -> let P := sa_period (xs j) in let T0 := dflt 0 (sa_t0 (xs j)) in
      (exists ph, phase T0 P (ts m) ph /\ four_point (fun s => f j (T0 + s)) (P / IZR (Q + 1)) ph (v m j)) /\
      (forall c0 c1 c2 c3, (forall s, Rabs (s - ts m) <= 2 * (P / IZR (Q + 1)) -> f j s = cubic c0 c1 c2 c3 s) -> v m j = f j (ts m)) /\
      (forall L, 0 <= L -> (forall s, Rabs (s - ts m) <= 2 * (P / IZR (Q + 1)) -> Rabs (f j s - f j (ts m)) <= L * Rabs (s - ts m)) ->
         Rabs (v m j - f j (ts m)) <= 3 / 4 * L * (P / IZR (Q + 1))).
Proof.
  intros k cp u1 u2 n x xs tv r rs os' order use Q np N t ts Hd sys ok Hr Hu HQ HC HT S0 SP f.
  rewrite (of_interpolated _ _ _ _ _ _ _ _ _ _ _ _ _ _ _ HC). cbn [any_t0 any_period].
  assert (I : interpolating n (fun y => light_curve_of k cp (LimbDark (ld_init (Fin u1) (Fin u2))) (Some (Simple (simple_init x))) tv (Some r) (Some y) None os' order (Some use) false)
    Q np tv (s_t0 (simple_init x)) (s_period (simple_init x)) f (fun j => dflt 0 (sa_t0 (xs j))) (fun j => sa_period (xs j))).
  { constructor; try assumption.
    - exists n. split; [lia|]. intro l. destruct (avec_vector l) as [V1 V2]. cbn [light_curve_of option_map any_api].
      destruct (lc_simple_plain u1 u2 n x xs r rs _ _ _ os' order Hd sys ok Hr V1 V2) as (X & HX & TX).
      destruct use; [|exists X; split; [exact HX|exact TX]]. destruct Hu as [Hu|Hu]; [discriminate Hu|].
      destruct (masked_simple u1 u2 n x xs r rs _ _ _ None 0 0 Hd sys ok Hr V1 V2) as (X' & Y' & g & E1 & E2 & T1 & T2).
      { cbn. lra. } { lia. } { left; reflexivity. } { exact Hu. }
      cbn [one_texp] in E1, E2. rewrite (lc_order_unused _ _ _ _ _ _ os' order) in E1. rewrite (lc_order_unused _ _ _ _ _ _ os' order) in E2.
      rewrite HX in E2. apply Ok_inj in E2. subst Y'. exists X'. split; [exact E1|].
      destruct T1 as [T1 T3]. split; [exact T1|]. intros m j Hm Hj. rewrite T3 by assumption. f_equal.
      apply (table_unique _ _ _ _ _ T2 TX); assumption.
    - split; [destruct (Nat.leb n 1); [exact S0|exists n; split; [lia|exact S0]]|].
      intros i Hi. assert (A := sargs_at_any n x xs sys i Hi). apply (f_equal sa_t0) in A. unfold simple_init. cbn [s_t0]. cbn in A.
      destruct (sa_t0 x), (sa_t0 (xs (i O))); try discriminate; [injection A as A; exact A|reflexivity].
    - split; [destruct (Nat.leb n 1); [exact SP|exists n; split; [lia|exact SP]]|].
      intros i Hi. assert (A := sargs_at_any n x xs sys i Hi). apply (f_equal sa_period) in A. exact A.
    - intros j Hj. apply (so_period _ (ok j Hj)). }
  assert (PF : forall j s (z : Z), (j < n)%nat -> f j (s + IZR z * sa_period (xs j)) = f j s).
  { intros j s z Hj. unfold f. destruct (simple_geometry (xs j) (ok j Hj)) as (_ & _ & _ & _ & _ & G). rewrite G. reflexivity. }
  destruct (interpolates _ _ _ _ _ _ _ _ _ _ _ _ _ I HT) as (Y & v & HY & TY & H).
  destruct (interp_accuracy _ _ _ _ _ _ _ _ _ _ _ _ _ I HT PF) as (Y' & v' & HY' & TY' & H').
  rewrite HY in HY'. apply Ok_inj in HY'. subst Y'. exists Y, v. split; [exact HY|]. split; [exact TY|].
  intros m j Hm Hj. cbv zeta. split; [apply H; assumption|]. rewrite (table_unique _ _ _ _ _ TY TY' m j Hm Hj). apply H'; assumption.
Qed.

(** ** secondary eclipses *)
Lemma compose_secondary : forall k cp u1 u2 v1 v2 n x xs os o tv r rs s ss os' order use Q np N t ts,
  consts_ok k -> system k n x xs os -> kep_init k x = Ok o -> disk_flux u1 u2 <> 0 -> disk_flux v1 v2 <> 0 ->
  planet_values n r rs -> (forall j, (j < n)%nat -> 0 < rs j) -> one_each n r -> one_each n (o_r_star o) ->
  planet_values n s ss -> (forall j, (j < n)%nat -> 0 <= ss j) ->
  use = Some false \/ (use = None /\ forall j, (j < n)%nat -> ka_ecc (xs j) = None /\ o_r_star (os j) + rs j < o_a (os j) /\ 0 <= o_sin_incl (os j)) ->
  (0 <= Q)%Z -> counted np tv n -> observed N t ts ->
  ash (o_t0 o) = Ok (if Nat.leb n 1 then [] else [n]) -> ash (o_period o) = Ok (if Nat.leb n 1 then [] else [n]) ->
  let f j w := let P := pos k (os j) Relative w None false in
    mixture (flux_ratio (ss j) (rs j) (o_r_star (os j))) (flux_at u1 u2 P (rs j) (o_r_star (os j))) (flux_at v1 v2 (opposite P) (o_r_star (os j)) (rs j)) in
  exists Y v, light_curve_of k (lift_cp cp) (Interpolated (Secondary {| se_primary := ld_init (Fin u1) (Fin u2); se_secondary := ld_init (Fin v1) (Fin v2); se_ratio := s |}) Q np)
      (Some (Keplerian o)) tv (Some r) (Some t) None os' order use false = Ok Y /\
    light_table n N Y v /\
    forall m j, (m < N)%nat -> (j < n)%nat -> let P := o_period (os j) in let T0 := o_t0 (os j) in
      (exists ph, phase T0 P (ts m) ph /\ four_point (fun s => f j (T0 + s)) (P / IZR (Q + 1)) ph (v m j)) /\
      (forall c0 c1 c2 c3, (forall s, Rabs (s - ts m) <= 2 * (P / IZR (Q + 1)) -> f j s = cubic c0 c1 c2 c3 s) -> v m j = f j (ts m)) /\
      (forall L, 0 <= L -> (forall s, Rabs (s - ts m) <= 2 * (P / IZR (Q + 1)) -> Rabs (f j s - f j (ts m)) <= L * Rabs (s - ts m)) ->
         Rabs (v m j - f j (ts m)) <= 3 / 4 * L * (P / IZR (Q + 1))).
Proof.
  intros k cp u1 u2 v1 v2 n x xs os o tv r rs s ss os' order use Q np N t ts kok sys Ho D1 D2 Hr Hr0 O1 O2 Hs Hs0 Hu HQ HC HT S0 SP f.
  rewrite (of_interpolated _ _ _ _ _ _ _ _ _ _ _ _ _ _ _ HC). cbn [any_t0 any_period].
  destruct (kepler_described k n x xs os o kok sys Ho) as [E0 EP].
  match goal with |- exists Y v, interpolated_light_curve ?B _ _ _ _ _ _ = _ /\ _ => set (base := B) end.
  assert (I : interpolating n base Q np tv (o_t0 o) (o_period o) f (fun j => o_t0 (os j)) (fun j => o_period (os j))).
  { constructor; try assumption.
    - exists n. split; [lia|]. intro l. destruct (avec_vector l) as [V1 V2]. unfold base.
      rewrite of_secondary.
      destruct (second_plain k n x xs os o kok sys Ho r rs Hr Hr0 (lift_cp cp) u1 u2 v1 v2 s ss _ _ _ os' order D1 D2 O1 O2 Hs Hs0 V1 V2) as (X & HX & TX).
      destruct Hu as [->|[-> Hu]]; [exists X; split; [exact HX|exact TX]|].
      destruct (second_masked k n x xs os o kok sys Ho r rs Hr Hr0 cp u1 u2 v1 v2 s ss _ _ _ None 0 0 D1 D2 O1 O2 Hs Hs0 V1 V2) as (X' & Y' & g & E1 & E2 & T1 & T2).
      { cbn. lra. } { lia. } { left; reflexivity. } { exact Hu. }
      cbn [one_texp option_map] in E1, E2.
      assert (U : forall z w use, secondary_light_curve k (lift_cp cp) {| se_primary := ld_init (Fin u1) (Fin u2); se_secondary := ld_init (Fin v1) (Fin v2); se_ratio := s |}
         o r (Some (avec l)) None z w use false = secondary_light_curve k (lift_cp cp) {| se_primary := ld_init (Fin u1) (Fin u2); se_secondary := ld_init (Fin v1) (Fin v2); se_ratio := s |}
         o r (Some (avec l)) None os' order use false).
      { intros z w [[]|]; reflexivity. }
      rewrite U in E1. rewrite U in E2.
      rewrite HX in E2. apply Ok_inj in E2. subst Y'. exists X'. split; [exact E1|].
      destruct T1 as [T1 T3]. split; [exact T1|]. intros m j Hm Hj. rewrite T3 by assumption. f_equal.
      apply (table_unique _ _ _ _ _ T2 TX); assumption.
    - split; [|exact E0]. destruct (Nat.leb n 1); [exact S0|]. exists n. split; [lia|exact S0].
    - split; [|exact EP]. destruct (Nat.leb n 1); [exact SP|]. exists n. split; [lia|exact SP].
    - intros j Hj. apply (ph_period _ (sy_phys _ _ _ _ _ sys j Hj)). }
  assert (PF : forall j s (z : Z), (j < n)%nat -> f j (s + IZR z * o_period (os j)) = f j s).
  { intros j w z Hj. unfold f.
    destruct (periodic_motion k (xs j) (os j) w z None false None None kok (sy_init _ _ _ _ _ sys j Hj) (sy_phys _ _ _ _ _ sys j Hj)) as [A _].
    cbv zeta in A. rewrite (proj1 (A Relative)). reflexivity. }
  clearbody base.
  destruct (interpolates _ _ _ _ _ _ _ _ _ _ _ _ _ I HT) as (Y & v & HY & TY & H).
  destruct (interp_accuracy _ _ _ _ _ _ _ _ _ _ _ _ _ I HT PF) as (Y' & v' & HY' & TY' & H').
  rewrite HY in HY'. apply Ok_inj in HY'. subst Y'. exists Y, v. split; [exact HY|]. split; [exact TY|].
  intros m j Hm Hj. cbv zeta. split; [apply H; assumption|]. rewrite (table_unique _ _ _ _ _ TY TY' m j Hm Hj). apply H'; assumption.
Qed.

(** ** interpolating twice *)
Section Twice.
Variables (n : nat) (base : tens -> res tens) (Q : Z) (np : option Z) (tv : option nat) (t0 period : tens) (f : nat -> R -> R) (T0 P : nat -> R).
Hypothesis I : interpolating n base Q np tv t0 period f T0 P.
Let h j := P j / IZR (Q + 1).
Definition once (j : nat) (s : R) : R :=
  match interpolated_light_curve base Q np tv t0 period (avec [s]) with
  | Ok Y => match aget Y (at_tp 0 j) with Fin v => v | _ => 0 end
  | Err _ => 0
  end.
Lemma observed_avec l : observed (length l) (avec l) (fun m => nth m l 0).
Proof. destruct (avec_vector l) as [[_ V1] V2]. split; assumption. Qed.
Lemma once_is j s : (j < n)%nat -> exists ph, phase (T0 j) (P j) s ph /\ four_point (fun s => f j (T0 j + s)) (h j) ph (once j s).
Proof.
  intro Hj. destruct (interpolates _ _ _ _ _ _ _ _ _ _ _ _ _ I (observed_avec [s])) as (Y & v & HY & [_ TY] & H).
  unfold once. rewrite HY, (TY 0%nat j) by (cbn; lia). apply (H 0%nat j); [cbn; lia|exact Hj].
Qed.
Lemma once_pointwise : pointwise n (interpolated_light_curve base Q np tv t0 period) once.
Proof.
  intro l. destruct (interpolates _ _ _ _ _ _ _ _ _ _ _ _ _ I (observed_avec l)) as (Y & v & HY & [TY TV] & H).
  exists Y. split; [exact HY|]. split; [exact TY|]. intros m j Hm Hj. rewrite (TV m j Hm Hj). f_equal.
  destruct (H m j Hm Hj) as (ph & Hp & Hf). destruct (once_is j (nth m l 0) Hj) as (ph' & Hp' & Hf').
  assert (ph = ph') by (apply (phase_unique _ _ _ _ _ (ip_pos _ _ _ _ _ _ _ _ _ _ I j Hj) Hp Hp')). subst ph'.
  apply (four_unique _ _ _ _ _ (step_ip _ _ _ _ _ _ _ _ _ _ j I Hj) Hf Hf').
Qed.
Hypothesis PF : forall j s (z : Z), (j < n)%nat -> f j (s + IZR z * P j) = f j s.
Lemma once_grid j (z : Z) : (j < n)%nat -> once j (T0 j + IZR z * h j) = f j (T0 j + IZR z * h j).
Proof.
  intro Hj. destruct (once_is j (T0 j + IZR z * h j) Hj) as (ph & Hp & Hf).
  assert (S := step_ip _ _ _ _ _ _ _ _ _ _ j I Hj). fold (h j) in S. assert (HP := ip_pos _ _ _ _ _ _ _ _ _ _ I j Hj).
  assert (HQ := ip_grid _ _ _ _ _ _ _ _ _ _ I).
  assert (SP : P j = IZR (Q + 1) * h j). { unfold h. field. apply IZR_neq. lia. }
  set (i := Z.to_nat (z mod (Q + 1))). set (w := (z / (Q + 1))%Z).
  assert (Ei : IZR z = IZR w * IZR (Q + 1) + INR i).
  { unfold i, w. rewrite INR_IZR_INZ, Z2Nat.id by (apply Z.mod_pos_bound; lia). rewrite <- mult_IZR, <- plus_IZR. f_equal.
    rewrite Z.mul_comm. apply Z.div_mod. lia. }
  assert (Bi : INR i < IZR (Q + 1)). { rewrite INR_IZR_INZ. apply IZR_lt. unfold i. rewrite Z2Nat.id by (apply Z.mod_pos_bound; lia). apply Z.mod_pos_bound. lia. }
  assert (Ep : ph = INR i * h j).
  { apply (phase_unique _ _ _ _ _ HP Hp). split.
    - split; [apply Rmult_le_pos; [apply pos_INR|lra]|]. rewrite SP. apply Rmult_lt_compat_r; assumption.
    - exists w. rewrite Ei, SP. ring. }
  rewrite (four_grid _ _ _ _ i S Hf Ep), Ep. rewrite <- (PF j _ w Hj). f_equal. rewrite Ei, SP. ring.
Qed.
Lemma twice N t ts : observed N t ts ->
  exists Y Z v, interpolated_light_curve base Q np tv t0 period t = Ok Y /\
    interpolated_light_curve (interpolated_light_curve base Q np tv t0 period) Q np tv t0 period t = Ok Z /\
    light_table n N Y v /\ light_table n N Z v.
Proof.
  intro HT. destruct (interpolates _ _ _ _ _ _ _ _ _ _ _ _ _ I HT) as (Y & v & HY & TY & H).
  assert (I2 : interpolating n (interpolated_light_curve base Q np tv t0 period) Q np tv t0 period once T0 P).
  { destruct I. constructor; try assumption. exists n. split; [lia|]. apply once_pointwise. }
  destruct (interpolates _ _ _ _ _ _ _ _ _ _ _ _ _ I2 HT) as (Z & v' & HZ & [TZ TV] & H').
  exists Y, Z, v. split; [exact HY|]. split; [exact HZ|]. split; [exact TY|]. split; [exact TZ|].
  intros m j Hm Hj. rewrite (TV m j Hm Hj). f_equal.
  destruct (H m j Hm Hj) as (ph & Hp & Hf). destruct (H' m j Hm Hj) as (ph' & Hp' & Hf').
  assert (ph = ph') by (apply (phase_unique _ _ _ _ _ (ip_pos _ _ _ _ _ _ _ _ _ _ I j Hj) Hp Hp')). subst ph'.
  apply (four_unique (fun s => f j (T0 j + s)) (h j) ph _ _ (step_ip _ _ _ _ _ _ _ _ _ _ j I Hj)); [|exact Hf].
  destruct Hf' as (i & a0 & a1 & a2 & a3 & B & C & E). exists i, a0, a1, a2, a3. split; [exact B|]. split; [|exact E].
  intros q Hq. refine (eq_trans (C q Hq) _). assert (G : forall z : BinNums.Z, q = IZR z -> once j (T0 j + (INR i + q) * h j) = f j (T0 j + (INR i + q) * h j)).
  { intros z ->. rewrite INR_IZR_INZ, <- plus_IZR. apply once_grid. exact Hj. }
  cbn in Hq. destruct Hq as [<-|[<-|[<-|[<-|[]]]]]; [apply (G (-1)%Z)|apply (G 0%Z)|apply (G 1%Z)|apply (G 2%Z)]; reflexivity.
Qed.
End Twice.

