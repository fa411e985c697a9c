(** * Systems that run backwards *)
From Coq Require Import Reals List Bool Arith ZArith Lra Lia Psatz.
From Verif Require Import Num CoreOps Inst CoreFlux M_units M_kepler M_fin M_tensor M_simple M_ttv M_limbdark M_secondary
  Spec_orbit Spec_params Spec_array Spec_light Spec_secondary Spec_delay Spec_sym Spec_back
  L_real L_kepop L_orbit L_params3 L_fl L_fl2 L_fl3 L_tens L_shape L_shapeS L_transit3 L_transit4 L_array L_motion L_pmotion L_pmotion3
  L_reshape L_light1 L_light2 L_light3 L_light4 L_light7 L_light8 L_second L_second2 L_delay L_delay2 L_sym L_sym2 L_node L_mirror L_back L_back2.
Import ListNotations.
Local Notation length := List.length.
Open Scope R_scope.

(** the same orbit backwards, as far as light curves see it *)
Record looks_back (T : R) (o o' : orbit R) : Prop := {
  lb_runs : runs_back T o o';
  lb_period : o_period o' = o_period o; lb_b : o_b o' = o_b o; lb_r_star : o_r_star o' = o_r_star o; lb_incl : o_incl o' = o_incl o;
  lb_omega : match o_ecc o, o_ecc o' with
             | Some d, Some d' => cos (e_omega d') = - cos (e_omega d) /\ sin (e_omega d') = sin (e_omega d) /\ o_tper o' = 2 * T - o_tper o
             | _, _ => True end;
  lb_t0 : o_ecc o = None -> exists z : Z, o_t0 o' = 2 * T - o_t0 o + IZR z * o_period o }.
Lemma lb_none T o o' : looks_back T o o' -> o_ecc o = None -> o_ecc o' = None.
Proof. intros [[] _ _ _ _ _ _] E. rewrite E in rb_ecc. destruct (o_ecc o'); [contradiction|reflexivity]. Qed.
Lemma looks_mask T o o' cp t r e : physical o -> looks_back T o o' -> o_ecc o = None ->
  transit_mask (fin_orbit o) (kep_warp (fin_orbit o)) cp (Fin t) (Fin r) e = transit_mask (fin_orbit o') (kep_warp (fin_orbit o')) cp (Fin (2 * T - t)) (Fin r) e.
Proof.
  intros Hp L E. assert (E' := lb_none T o o' L E). destruct L as [[] ? ? ? ? ? Z]. destruct (Z E) as [z Ez]. apply (mask_back cp o o' T z); assumption.
Qed.
(** flipped orbits *)
Lemma looks_flip k T x o x' o' r o2 o2' : consts_ok k -> kep_init k x = Ok o -> physical o -> kep_init k x' = Ok o' -> physical o' -> 0 < r ->
  looks_back T o o' -> flip k o r = Ok o2 -> flip k o' r = Ok o2' -> looks_back T o2 o2'.
Proof.
  intros kok Hi Hp Hi' Hp' Hr L F2 F2'. assert (Nn := lb_none T o o' L). destruct L as [RB EP Eb Er Ei Ew Et].
  destruct (flip_init k x o r kok Hi Hp Hr) as (q & G & Hq & Fa & FP & Fr & Fs & Fp & Finc & Fci & FO & Fe). rewrite F2 in G. apply Ok_inj in G. subst q.
  destruct (flip_init k x' o' r kok Hi' Hp' Hr) as (q & G & Hq' & Fa' & FP' & Fr' & Fs' & Fp' & Finc' & Fci' & FO' & Fe'). rewrite F2' in G. apply Ok_inj in G. subst q.
  assert (FF := kep_init_facts k kok _ o2 F2 Hq). assert (FF' := kep_init_facts k kok _ o2' F2' Hq').
  assert (F1 := kep_init_facts k kok _ o Hi Hp). assert (F1' := kep_init_facts k kok _ o' Hi' Hp').
  assert (X1 : o_a o2' = o_a o2) by (rewrite Fa, Fa'; apply (rb_a _ _ _ RB)).
  assert (X2 : o_period o2' = o_period o2) by (rewrite FP, FP'; exact EP).
  assert (X3 : o_incl o2' = o_incl o2) by (rewrite Finc, Finc'; exact Ei).
  assert (X4 : o_cos_incl o2' = o_cos_incl o2) by (rewrite (of_cosi _ _ _ FF), (of_cosi _ _ _ FF'), X3; reflexivity).
  assert (X5 : o_sin_incl o2' = o_sin_incl o2) by (rewrite (of_sini _ _ _ FF), (of_sini _ _ _ FF'), X3; reflexivity).
  assert (X6 : o_Omega o2' = o_Omega o2) by (rewrite (rb_Om _ _ _ RB) in FO'; destruct (o_Omega o); congruence).
  assert (X7 : o_m_star o2' = o_m_star o2) by (rewrite Fs, Fs'; apply (rb_mp _ _ _ RB)).
  assert (X8 : o_m_planet o2' = o_m_planet o2) by (rewrite Fp, Fp'; apply (rb_ms _ _ _ RB)).
  assert (RE := rb_ecc _ _ _ RB).
  assert (Main : match o_ecc o2, o_ecc o2' with
    | None, None => exists z : Z, o_t0 o2' = 2 * T - o_t0 o2 + IZR z * o_period o2
    | Some d, Some d' => e_ecc d' = e_ecc d /\ e_cosw d' = - e_cosw d /\ e_sinw d' = e_sinw d /\ o_tper o2' = 2 * T - o_tper o2
    | _, _ => False end).
  { destruct (o_ecc o) as [d|] eqn:ED, (o_ecc o') as [d'|] eqn:ED'; try contradiction.
    - destruct Fe as [Ft Fe], Fe' as [Ft' Fe']. rewrite Fe, Fe'. cbn [e_ecc e_cosw e_sinw]. destruct Ew as (W1 & W2 & W3). destruct RE as (R1 & _). split; [exact R1|].
      assert (C : forall a, cos (a - PI) = - cos a) by (intro a; rewrite cos_minus, cos_PI, sin_PI; ring). assert (S : forall a, sin (a - PI) = - sin a) by (intro a; rewrite sin_minus, cos_PI, sin_PI; ring).
      rewrite !C, !S, W1, W2. split; [reflexivity|]. split; [reflexivity|]. rewrite Ft, Ft'. exact W3.
    - destruct Fe as [Fe Ft], Fe' as [Fe' Ft']. rewrite Fe, Fe'. destruct (Et eq_refl) as [z Ez]. exists (z + 1)%Z.
      assert (O1 := of_t0 _ _ _ FF). assert (O2 := of_t0 _ _ _ FF'). rewrite (of_M0_circ _ _ _ FF Fe), Ft, (of_n _ _ _ FF), FP in O1. rewrite (of_M0_circ _ _ _ FF' Fe'), Ft', (of_n _ _ _ FF'), FP', EP in O2.
      assert (O3 := of_t0 _ _ _ F1). assert (O4 := of_t0 _ _ _ F1'). rewrite (of_M0_circ _ _ _ F1 ED), (of_n _ _ _ F1) in O3. rewrite (of_M0_circ _ _ _ F1' ED'), (of_n _ _ _ F1'), EP in O4.
      rewrite O1, O2, FP, plus_IZR. rewrite O3, O4 in Ez. lra. }
  constructor.
  - apply (make_back k T _ o2 _ o2' kok F2 Hq F2' Hq'); assumption.
  - exact X2.
  - assert (B1 := of_cosi_b _ _ _ FF). assert (B2 := of_cosi_b _ _ _ FF').
    assert (D : o_dcosidb o2' = o_dcosidb o2).
    { rewrite (of_dcosidb _ _ _ FF), (of_dcosidb _ _ _ FF'), X1, Fr, Fr'. unfold ecc_of, sinw_of. destruct (o_ecc o2), (o_ecc o2'); try contradiction; [|reflexivity]. destruct Main as (M1 & M2 & M3 & _). rewrite M1, M3. reflexivity. }
    assert (Dz : o_dcosidb o2 <> 0).
    { rewrite (of_dcosidb _ _ _ FF). assert (A := ph_a _ Hq). assert (A2 := ph_r_star _ Hq). unfold ecc_of, sinw_of.
      assert (A3 := ph_ecc _ Hq). assert (A4 := ph_omega _ Hq). destruct (o_ecc o2) as [d|].
      - specialize (A3 d eq_refl). specialize (A4 d eq_refl). assert (-1 <= e_sinw d <= 1) by nra. assert (0 < 1 + e_ecc d * e_sinw d) by nra. assert (0 < 1 - e_ecc d * e_ecc d) by nra.
        apply Rgt_not_eq. apply Rdiv_lt_0_compat; [|lra]. apply Rmult_lt_0_compat; [|lra]. apply Rdiv_lt_0_compat; lra.
      - apply Rgt_not_eq. apply Rdiv_lt_0_compat; [|lra]. apply Rmult_lt_0_compat; [|lra]. apply Rdiv_lt_0_compat; lra. }
    rewrite X4, B1, D in B2. apply Rmult_eq_reg_l in B2; [symmetry; exact B2|exact Dz].
  - rewrite Fr, Fr'. reflexivity.
  - exact X3.
  - destruct (o_ecc o2) as [d|] eqn:E2; [|exact I]. destruct (o_ecc o2') as [d'|] eqn:E2'; [|exact I].
    destruct (of_omega _ _ _ FF d E2) as [G1 G2]. destruct (of_omega _ _ _ FF' d' E2') as [G3 G4]. rewrite <- G1, <- G2, <- G3, <- G4. destruct Main as (M1 & M2 & M3 & M4). split; [exact M2|]. split; [exact M3|exact M4].
  - intro E2. rewrite E2 in Main. destruct (o_ecc o2'); [contradiction|]. exact Main.
Qed.

Section P.
Variables (k : consts) (n N : nat) (T : R).
Variables (x x' : kargs tens) (xs xs' : nat -> kargs R) (os os' : nat -> orbit R) (o o' : orbit tens).
Hypothesis kok : consts_ok k.
Hypothesis sys : system k n x xs os.
Hypothesis sys' : system k n x' xs' os'.
Hypothesis Ho : kep_init k x = Ok o.
Hypothesis Ho' : kep_init k x' = Ok o'.
Hypothesis LB : forall j, (j < n)%nat -> looks_back T (os j) (os' j).
Variables (t t' : tens) (ts : nat -> R).
Hypothesis Ht : is_vector N t.
Hypothesis Hts : forall m, (m < N)%nat -> aget t (at_time m) = Fin (ts m).
Hypothesis Ht' : is_vector N t'.
Hypothesis Hts' : forall m, (m < N)%nat -> aget t' (at_time m) = Fin (2 * T - ts m).
Variable rs : nat -> R.

Lemma back_in_transit_S cp r r' te es ld : (forall j, (j < n)%nat -> o_ecc (os j) = None) -> planet_values n r rs -> planet_values n r' rs -> opt_values n te es ->
  oa_in_transit (kep_api k (lift_cp cp) o) t r te ld = oa_in_transit (kep_api k (lift_cp cp) o') t' r' te ld.
Proof.
  intros C Hr Hr' He. apply (pair_in_transit k n N x x' xs xs' os os' o o' kok sys sys' Ho Ho' t t' ts (fun m => 2 * T - ts m) Ht Hts Ht' Hts' rs rs cp r r' te es ld Hr Hr' He).
  intros m j e Hm Hj. apply looks_mask; [apply (sy_phys _ _ _ _ _ sys j Hj)|apply LB, Hj|apply C, Hj].
Qed.
Lemma back_flux u1 u2 j u r : (j < n)%nat -> flux_at u1 u2 (pos k (os' j) Relative (2 * T - u) None false) r (o_r_star (os' j)) = flux_at u1 u2 (pos k (os j) Relative u None false) r (o_r_star (os j)).
Proof.
  intro Hj. assert (Ow := node_known k (xs j) (os j) (sy_init _ _ _ _ _ sys j Hj)). rewrite (back_pos k T (os j) (os' j) _ (lb_runs _ _ _ (LB j Hj)) Ow), across_flux, (lb_r_star _ _ _ (LB j Hj)). reflexivity.
Qed.
Lemma back_light_S u1 u2 cp r r' texp es osam order use :
  disk_flux u1 u2 <> 0 -> elements n r rs -> elements n r' rs -> opt_exposures N texp es -> even_rule texp osam order ->
  (use = Some false \/ (exists e, texp = one_texp e) /\ forall j, (j < n)%nat -> o_ecc (os j) = None) ->
  same_light n N
    (get_light_curve (ld_init (Fin u1) (Fin u2)) (Some (kep_api k (lift_cp cp) o)) (Some r) (Some t) texp osam order use false)
    (get_light_curve (ld_init (Fin u1) (Fin u2)) (Some (kep_api k (lift_cp cp) o')) (Some r') (Some t') texp osam order use false).
Proof.
  intros Hd Hr Hr' He Ev HM.
  destruct (kepler_answers k n x xs os o (lift_cp cp) kok sys Ho) as [HA Hs]. destruct (kepler_answers k n _ _ _ _ (lift_cp cp) kok sys' Ho') as [HA' Hs'].
  apply (light_same u1 u2 _ _ false n _ _ _ _ r r' rs rs N t t' ts (fun m => 2 * T - ts m) texp es osam order use Hd HA HA' Hs Hs'); try assumption.
  - intros j Hj. assert (P := ph_r_star _ (sy_phys _ _ _ _ _ sys j Hj)). lra.
  - intros j Hj. assert (P := ph_r_star _ (sy_phys _ _ _ _ _ sys' j Hj)). lra.
  - destruct HM as [HM|[[e ->] HM]]; [left; exact HM|right].
    apply (back_in_transit_S cp (flat_radii r) (flat_radii r') (one_texp e) (fun _ => pad_of e)); [exact HM|apply radii_flat, Hr|apply radii_flat, Hr'|apply one_opt].
  - intros nodes weights St m j Hm Hj. unfold mean_flux, fluxj. destruct texp as [te|].
    + symmetry. apply (node_mean_back osam order nodes weights _ _ T).
      * apply St. discriminate.
      * destruct Ev as [Ev|Ev]; [discriminate Ev|exact Ev].
      * intro u. apply (back_flux u1 u2 j u (rs j) Hj).
    + symmetry. apply (back_flux u1 u2 j (ts m) (rs j) Hj).
Qed.
End P.

Section F.
Variables (k : consts) (n N : nat) (T : R).
Variables (x x' : kargs tens) (xs xs' : nat -> kargs R) (os os' : nat -> orbit R) (o o' : orbit tens).
Hypothesis kok : consts_ok k.
Hypothesis sys : system k n x xs os.
Hypothesis sys' : system k n x' xs' os'.
Hypothesis Ho : kep_init k x = Ok o.
Hypothesis Ho' : kep_init k x' = Ok o'.
Hypothesis LB : forall j, (j < n)%nat -> looks_back T (os j) (os' j).
Variables (t t' : tens) (ts : nat -> R).
Hypothesis Ht : is_vector N t.
Hypothesis Hts : forall m, (m < N)%nat -> aget t (at_time m) = Fin (ts m).
Hypothesis Ht' : is_vector N t'.
Hypothesis Hts' : forall m, (m < N)%nat -> aget t' (at_time m) = Fin (2 * T - ts m).
Variables (r : tens) (rs : nat -> R).
Hypothesis Hr : planet_values n r rs.
Hypothesis Hr0 : forall j, (j < n)%nat -> 0 < rs j.
Hypothesis O1 : one_each n r.
Hypothesis O2 : one_each n (o_r_star o).
Hypothesis O2' : one_each n (o_r_star o').
Lemma back_secondary_S u1 u2 v1 v2 s ss cp texp es osam order use :
  disk_flux u1 u2 <> 0 -> disk_flux v1 v2 <> 0 ->
  planet_values n s ss -> (forall j, (j < n)%nat -> 0 <= ss j) -> opt_exposures N texp es -> even_rule texp osam order ->
  (use = Some false \/ (exists e, texp = one_texp e) /\ forall j, (j < n)%nat -> o_ecc (os j) = None) ->
  let S := {| se_primary := ld_init (Fin u1) (Fin u2); se_secondary := ld_init (Fin v1) (Fin v2); se_ratio := s |} in
  same_light n N (secondary_light_curve k (lift_cp cp) S o r (Some t) texp osam order use false) (secondary_light_curve k (lift_cp cp) S o' r (Some t') texp osam order use false).
Proof.
  intros D1 D2 Hs Hs0 He Ev Hm S.
  destruct (flip_system k n x xs os o kok sys Ho r rs Hr Hr0) as (o2 & os2 & F2 & sys2 & _).
  destruct (flip_system k n x' xs' os' o' kok sys' Ho' r rs Hr Hr0) as (o2' & os2' & F2' & sys2' & _).
  assert (LB2 : forall j, (j < n)%nat -> looks_back T (os2 j) (os2' j)).
  { intros j Hj. apply (looks_flip k T (xs j) (os j) (xs' j) (os' j) (rs j)); try assumption.
    - apply (sy_init _ _ _ _ _ sys j Hj). - apply (sy_phys _ _ _ _ _ sys j Hj). - apply (sy_init _ _ _ _ _ sys' j Hj). - apply (sy_phys _ _ _ _ _ sys' j Hj).
    - apply Hr0, Hj. - apply LB, Hj. - apply (sy_init _ _ _ _ _ sys2 j Hj). - apply (sy_init _ _ _ _ _ sys2' j Hj). }
  apply (second_same k n x xs os o x' xs' os' o' r rs r rs o2 o2' (lift_cp cp) u1 u2 v1 v2 s ss N t t' texp osam order use false); try assumption; cbn [se_primary se_secondary].
  - intros j Hj. rewrite (lb_r_star _ _ _ (LB j Hj)). reflexivity.
  - apply (back_light_S k n N T x x' xs xs' os os' o o' kok sys sys' Ho Ho' LB t t' ts Ht Hts Ht' Hts' rs u1 u2 cp r r texp es); try assumption; apply one_each_elements; assumption.
  - assert (R1 := rstar_numbers k n x xs os o kok sys Ho). assert (R1' := rstar_numbers k n x' xs' os' o' kok sys' Ho').
    apply (back_light_S k n N T _ _ _ _ os2 os2' o2 o2' kok sys2 sys2' F2 F2' LB2 t t' ts Ht Hts Ht' Hts' (fun j => o_r_star (os j)) v1 v2 cp _ _ texp es); try assumption.
    + apply one_each_elements; assumption.
    + apply one_each_elements; [assumption|]. split; [apply R1'|]. intros j Hj. rewrite <- (lb_r_star _ _ _ (LB j Hj)). apply R1', Hj.
    + destruct Hm as [Hm|[He1 Hm]]; [left; exact Hm|right]. split; [exact He1|]. intros j Hj.
      destruct (flip_init k (xs j) (os j) (rs j) kok (sy_init _ _ _ _ _ sys j Hj) (sy_phys _ _ _ _ _ sys j Hj) (Hr0 j Hj)) as (q & G & _ & _ & _ & _ & _ & _ & _ & _ & _ & Fe).
      assert (G2 : flip k (os j) (rs j) = Ok (os2 j)) by apply (sy_init _ _ _ _ _ sys2 j Hj). rewrite G2 in G. apply Ok_inj in G. subst q. rewrite (Hm j Hj) in Fe. apply Fe.
Qed.
End F.
