(** * Light curves combined with orbits: examples, Keplerian orbits interpolated twice *)
From Coq Require Import Reals List Bool Arith ZArith Lra Lia Psatz Sorted String.
From Verif Require Import Num CoreOps Inst CoreFlux M_units M_kepler M_kwargs M_fin M_tensor M_simple M_ttv M_limbdark M_secondary M_interpolated M_compose
  Spec_orbit Spec_params Spec_array Spec_simple Spec_ttv Spec_light Spec_secondary Spec_interp L_kwargs L_params3 L_params4 L_real L_orbit L_array L_transit L_transit6 L_interp2 L_interp3 L_light1 L_light7 L_light8 L_light9
  L_ttv3 L_ttv4 L_ttv5 L_ttv6 L_ttv7 L_ttv8 L_simple2 L_compose Ex_orbit Ex_system Ex_compose.
Import ListNotations.
Open Scope R_scope.
Local Notation length := List.length.

Lemma compose_twice : forall k cp u1 u2 n x xs os o tv r rs os' order use Q np N t ts,
  disk_flux u1 u2 <> 0 -> consts_ok k -> system k n x xs os -> kep_init k x = Ok o -> elements n r rs ->
  use = false \/ (forall j, (j < n)%nat -> ka_ecc (xs j) = None /\ 0 <= rs j /\ o_r_star (os j) + rs j < o_a (os j) /\ 0 <= o_sin_incl (os j)) ->
  (0 <= Q)%Z -> counted np tv n -> observed N t ts ->
  ash (o_t0 o) = Ok (if Nat.leb n 1 then [] else [n]) -> ash (o_period o) = Ok (if Nat.leb n 1 then [] else [n]) ->
  let l := LimbDark (ld_init (Fin u1) (Fin u2)) in
  let of b := light_curve_of k (lift_cp cp) b (Some (Keplerian o)) tv (Some r) (Some t) None os' order (Some use) false in
  exists Y Z v, of (Interpolated l Q np) = Ok Y /\ of (Interpolated (Interpolated l Q np) Q np) = Ok Z /\
    light_table n N Y v /\ light_table n N Z v.
Proof.
  intros k cp u1 u2 n x xs os o tv r rs os' order use Q np N t ts Hd kok sys Ho Hr Hu HQ HC HT S0 SP l of.
  destruct (interp_kepler u1 u2 k n x xs os o cp r rs os' order use Q np tv Hd kok sys Ho Hr Hu HQ HC S0 SP) as [I PF].
  destruct (twice n _ Q np tv _ _ _ _ _ I PF N t ts HT) as (Y & Z & v & HY & HZ & TY & TZ).
  exists Y, Z, v. unfold of. destruct (counted_ok _ _ _ HC) as (z & Hz & _).
  cbn [light_curve_of l]. rewrite Hz. cbn [rbind any_t0 any_period]. split; [exact HY|]. split; [exact HZ|]. split; assumption.
Qed.

Lemma late_ttv : exists o os, consts_ok ek /\ ttv_init ek ex_late = Ok o /\ ttv_system ek 2 o os ex_late_tts /\ is_vector 3 (vector 3 INR) /\
   (forall m, (m < 3)%nat -> aget (vector 3 INR) (at_time m) = Fin (INR m)).
Proof.
  apply (ex_sys_gen ex_late ex_late_ttvs ex_late_tts eq_refl).
  - destruct (kep_call ek (ex_tkw 2 ex_bs)) as [ob|] eqn:K; [|discriminate K].
    assert (E1 : o_t0 ob = vector 2 (fun _ => 2)) by (apply (call_t0 ek _ _ _ K); reflexivity).
    assert (E2 : o_period ob = vector 2 (fun _ => 10)) by (apply (call_period ek _ _ _ K); reflexivity). clear - E1 E2 K.
    unfold ttv_init. cbn [ta_ttvs ta_inds ta_times ta_kw targs_of ex_late]. rewrite K. clear K. cbn [rbind]. unfold ttv_finish. rewrite E1, E2.
    eexists. split; [reflexivity|]. split; [reflexivity|]. split; [reflexivity|]. cbn. unfold Pos.to_nat. cbn. repeat match goal with |- _ :: _ = _ :: _ => apply f_equal2 | |- Fin _ = Fin _ => apply f_equal end; try reflexivity; lra.
  - intros [|[|j]] Hj; [| |lia]; cbn; ssort.
Qed.

Lemma late_example : exists o os near, disk_flux (3 / 10) (2 / 10) <> 0 /\ consts_ok ek /\
  ttv_init ek ex_late = Ok o /\ ttv_system ek 2 o os ex_late_tts /\ nearest_transits 2 ex_late_tts near /\
  elements 2 (vector 2 (fun _ => 1 / 10)) (fun _ => 1 / 10) /\
  (forall j, (j < 2)%nat -> o_ecc (os j) = None /\ 0 <= 1 / 10 /\ o_r_star (os j) + 1 / 10 < o_a (os j) /\ 0 <= o_sin_incl (os j)) /\
  counted None (Some 2%nat) 2 /\ is_vector 1 (vector 1 (fun _ => 15)) /\ observed 1 (vector 1 (fun _ => 15)) (fun _ => 15) /\
  In 15 (ex_late_tts 0) /\ phase (o_t0 (os 0%nat)) (o_period (os 0%nat)) 15 3 /\
  (forall s, Rabs (s - (o_t0 (os 0%nat) + 3)) <= 2 * (o_period (os 0%nat) / IZR (99 + 1)) ->
     ~ overlaps (pos ek (os 0%nat) Relative (orbit_time os near 0 s) None false) (1 / 10) (o_r_star (os 0%nat))) /\
  flux_at (3 / 10) (2 / 10) (pos ek (os 0%nat) Relative (o_t0 (os 0%nat)) None false) (1 / 10) (o_r_star (os 0%nat)) < 0.
Proof.
  destruct late_ttv as (o & os0 & kok & Ho & Sy0 & _). destruct ex_tsystem as (os & Sy & F).
  assert (sys : ttv_system ek 2 o os ex_late_tts).
  { destruct Sy0 as [M _ A I P]. constructor; try assumption. exists (ex_targs 2 ex_bs), (fun j => ex_b_args (ex_bs j)). split; [|exact Sy].
    clear - Ho. unfold ttv_init in Ho. cbn [ta_ttvs ta_kw ta_inds ex_late targs_of] in Ho.
    change (kep_call ek (ex_tkw 2 ex_bs)) with (kep_init ek (ex_targs 2 ex_bs)) in Ho. destruct (kep_init ek (ex_targs 2 ex_bs)) as [ob|]; [|discriminate Ho].
    cbn [rbind] in Ho. destruct (imap _ ex_late_ttvs) as [times|] in Ho; [|discriminate Ho]. cbn [rbind] in Ho.
    apply L_ttv3.finish_ok in Ho. f_equal. symmetry. apply Ho. }
  destruct (near_exists _ _ _ _ _ sys) as (near & Hn). exists o, os, near.
  split; [apply disk_example|]. split; [exact kok|]. split; [exact Ho|]. split; [exact sys|]. split; [exact Hn|]. split; [apply elements_vector|].
  assert (F0 := F 0%nat ltac:(lia)). assert (F1 := F 1%nat ltac:(lia)).
  destruct F0 as (A3 & A4 & A1 & A2 & A5 & A6 & A7). destruct F1 as (B3 & B4 & B1 & B2 & B5 & B6 & B7). cbn in A2, B2.
  split; [intros [|[|j]] Hj; [| |lia]; cbn; repeat split; lra || assumption|].
  split; [reflexivity|]. split; [apply vector_is|]. split; [split; [reflexivity|intros m Hm; apply (vector_at 1 (fun _ => 15) m Hm)]|].
  split; [cbn; auto|]. split. { rewrite A3, A4. split; [lra|]. exists 1%Z. lra. }
  assert (I0 := sy_init _ _ _ _ _ Sy 0%nat ltac:(lia)). assert (P0 := sy_phys _ _ _ _ _ Sy 0%nat ltac:(lia)).
  assert (C := kep_init_facts ek ek_ok _ _ I0 P0).
  assert (Si : 0 < o_sin_incl (os 0%nat)).
  { destruct (Rle_lt_or_eq_dec _ _ A7) as [Hs|Hs]; [exact Hs|]. exfalso.
    assert (Q := of_cosi_b _ _ _ C). rewrite A2, Rmult_0_r, (of_cosi _ _ _ C) in Q.
    assert (Q1 := of_sini _ _ _ C). assert (Q2 := sin2_cos2' (o_incl (os 0%nat))). rewrite Q, <- Q1, <- Hs in Q2. lra. }
  split.
  - intros s Hs HO. rewrite A3, A4 in Hs. replace (2 * (10 / IZR (99 + 1))) with (1 / 5) in Hs by (cbn; field).
    assert (Hs' : 24 / 5 <= s <= 26 / 5) by (revert Hs; unfold Rabs; destruct (Rcase_abs (s - (2 + 3))); lra). clear Hs.
    assert (E : near 0%nat s = 2).
    { destruct (Hn 0%nat s ltac:(lia)) as [Q1 Q]. destruct (Q 2 ltac:(left; reflexivity)) as [Q2 _].
      cbn in Q1. destruct Q1 as [Q1|[Q1|[Q1|[Q1|[]]]]]; rewrite <- Q1 in *; [reflexivity| | |];
        exfalso; revert Q2; unfold Rabs; repeat destruct Rcase_abs; lra. }
    unfold orbit_time in HO. rewrite E, A4 in HO. replace (2 + (s - 2)) with s in HO by ring.
    apply overlaps_transits in HO. apply (transits_circ ek ek_ok _ _ I0 P0 A1 (1 / 10) ltac:(lra)) in HO. cbv zeta in HO.
    destruct HO as [HO _]. rewrite A3, A4 in HO. assert (cos (2 * PI * (s - 2) / 10) < 0); [|nra].
    assert (Hpi := PI_RGT_0). apply cos_lt_0; nra.
  - unfold flux_at. rewrite A5. assert (G := circ_geom ek ek_ok _ _ (o_t0 (os 0%nat)) I0 P0 A1). cbv zeta in G.
    change (get_relative_position ek (os 0%nat) (kep_warp (os 0%nat)) (o_t0 (os 0%nat)) None false) with (pos ek (os 0%nat) Relative (o_t0 (os 0%nat)) None false) in G.
    replace (2 * PI * (o_t0 (os 0%nat) - o_t0 (os 0%nat)) / o_period (os 0%nat)) with 0 in G by (rewrite A3; field).
    rewrite sin_0, cos_0, A2, A5 in G. destruct G as [G1 G2]. rewrite G1, G2.
    apply rel_flux_in.
    + intros mu H. unfold intensity. nra.
    + lra.
    + replace (o_a (os 0%nat) * o_a (os 0%nat) * (0 * 0) + 0 * 0 * (1 * 1) * (1 * 1)) with 0 by ring. rewrite sqrt_0.
      replace (0 / 1) with 0 by field. rewrite Rabs_R0. lra.
    + assert (0 < o_a (os 0%nat)) by lra. match goal with |- 0 < ?z => replace z with (o_a (os 0%nat) * o_sin_incl (os 0%nat)) by field end. nra.
Qed.
Lemma simple_interp_example :
  simple_system 1 ex_one_simple (fun _ => ex_simple (1 / 2)) /\ simple_ok (ex_simple (1 / 2)) /\
  elements 1 (scalar (1 / 10)) (fun _ => 1 / 10) /\
  (0 <= 1 / 10 /\ Rabs (dflt 0 (sa_b (ex_simple (1 / 2)))) < 1 + dflt 0 (sa_ror (ex_simple (1 / 2))) /\
     Rabs (dflt 0 (sa_b (ex_simple (1 / 2)))) * dflt 1 (sa_r_star (ex_simple (1 / 2))) <> dflt 1 (sa_r_star (ex_simple (1 / 2))) + 1 / 10) /\
  counted None (Some 1%nat) 1 /\ observed 3 (vector 3 INR) INR /\
  ash (s_t0 (simple_init ex_one_simple)) = Ok [] /\ ash (sa_period ex_one_simple) = Ok [].
Proof.
  split. { constructor; cbn; try exact I; try apply scalar_pp; [split; [apply scalar_pp|right; split; reflexivity]|]. intros [|j] Hj; [|lia]; reflexivity. }
  split; [apply ex_simple_ok; lra|]. split; [split; [exists []; split; reflexivity|intros j Hj; reflexivity]|].
  split; [cbn; rewrite Rabs_pos_eq by lra; repeat split; lra|]. split; [reflexivity|].
  split; [split; [reflexivity|intros m Hm; apply vector_at; exact Hm]|]. split; reflexivity.
Qed.
Lemma eclipse_interp_example : exists o o', system ek 1 (ex_scalar_args 0) (fun _ => ex_b_args 0) (fun _ => o) /\
  kep_init ek (ex_scalar_args 0) = Ok o' /\ disk_flux (3 / 10) (2 / 10) <> 0 /\ consts_ok ek /\
  planet_values 1 (scalar (1 / 10)) (fun _ => 1 / 10) /\ one_each 1 (scalar (1 / 10)) /\ one_each 1 (o_r_star o') /\
  (ka_ecc (ex_b_args 0) = None /\ o_r_star o + 1 / 10 < o_a o /\ 0 <= o_sin_incl o) /\
  counted (Some 1%Z) None 1 /\ observed 3 (vector 3 INR) INR /\ ash (o_t0 o') = Ok [] /\ ash (o_period o') = Ok [].
Proof.
  destruct ex_scalar as (o & S & E1 & E2 & E3 & E4 & E5 & E6 & E7). exists o.
  destruct (kep_init ek (ex_scalar_args 0)) as [o'|] eqn:E; [|discriminate E]. exists o'. cbn in E. apply Ok_inj in E. subst o'.
  split; [exact S|]. split; [reflexivity|]. split; [apply disk_example|]. split; [exact ek_ok|].
  split; [apply scalar_values|]. split; [right; split; reflexivity|]. split; [right; split; reflexivity|].
  split; [split; [reflexivity|]; split; [rewrite E5; lra|exact E7]|]. split; [reflexivity|].
  split; [split; [reflexivity|intros m Hm; apply vector_at; exact Hm]|]. split; reflexivity.
Qed.
