(** * Linearity, and the estimates for data predicted by orbits *)
From Coq Require Import Reals List Bool Arith ZArith Lia Lra.
From Verif Require Import Num CoreOps Inst M_units M_kepler M_ttv M_rv Spec_orbit Spec_rv L_orbit L_motion CoreLin L_lin L_rv1 L_rv2 L_rv3 L_rv4 L_rv5.
Import ListNotations.
Open Scope R_scope.

Lemma dot_lincomb a b : forall r u v, length u = length v -> dot r (lincomb a b u v) = a * dot r u + b * dot r v.
Proof.
  induction r as [|x r IH]; intros u v L; [cbn; ring|]. destruct u as [|p u], v as [|q v]; try discriminate; [cbn; ring|].
  unfold lincomb in *. cbn [combine map dot fst snd]. rewrite IH by (cbn in L; lia). ring.
Qed.
Lemma lincomb_length a b u v : length u = length v -> length (lincomb a b u v) = length u.
Proof. intro L. unfold lincomb. rewrite map_length, combine_length. lia. Qed.
Lemma linsolve_wide A b w : linsolve A b = Ok w -> List.Forall (fun r => length r = length A) A.
Proof.
  unfold linsolve. destruct (forallb _ A && _) eqn:E; [|discriminate]. intros _. apply andb_prop in E. destruct E as [E _]. rewrite forallb_forall in E.
  apply Forall_forall. intros r I. apply Nat.eqb_eq. apply E. exact I.
Qed.
Lemma linsolve_lin a b A u v w z : linsolve A u = Ok w -> linsolve A v = Ok z -> linsolve A (lincomb a b u v) = Ok (lincomb a b w z).
Proof.
  intros E1 E2. destruct (linsolve_sound _ _ _ E1) as (L1 & L1' & S1). destruct (linsolve_sound _ _ _ E2) as (L2 & L2' & S2).
  replace (lincomb a b u v) with (map (fun r => dot r (lincomb a b w z)) A).
  - apply linsolve_unique; [exact (linsolve_wide _ _ _ E1)|rewrite lincomb_length; lia|exact (linsolve_inj _ _ _ E1)].
  - rewrite <- S1, <- S2. unfold lincomb at 2. rewrite combine_map, map_map. apply map_ext. intro r. cbn [fst snd]. apply dot_lincomb. lia.
Qed.
Lemma removelast_lincomb a b n : forall u v, length u = n -> length v = n -> removelast (lincomb a b u v) = lincomb a b (removelast u) (removelast v).
Proof.
  induction n as [|n IH]; intros u v L1 L2.
  - destruct u, v; try discriminate. reflexivity.
  - destruct u as [|x u], v as [|y v]; try discriminate. cbn in L1, L2. injection L1 as L1. injection L2 as L2. specialize (IH u v L1 L2). destruct u as [|x' u], v as [|y' v]; try (cbn in *; lia); [reflexivity|].
    unfold lincomb in *. cbn [combine map removelast fst snd] in *. f_equal. exact IH.
Qed.
Lemma sumf_map {A C} (f : C -> R) (h : A -> C) l : sumf f (map h l) = sumf (fun a => f (h a)) l.
Proof. induction l as [|a l IH]; [reflexivity|]. cbn. rewrite IH. reflexivity. Qed.
Lemma gram_eq p drow X Sg Y Y' : length Sg = length X -> length Y = length X -> length Y' = length X -> gram (mkobs drow X Sg Y) p = gram (mkobs drow X Sg Y') p.
Proof.
  intros L1 L2 L3. unfold gram. apply map_ext. intro i. apply map_ext. intro j.
  assert (H : map fst (mkobs drow X Sg Y) = map fst (mkobs drow X Sg Y')).
  { revert Sg Y Y' L1 L2 L3. induction X as [|t X IH]; intros [|s Sg] [|y Y] [|y' Y'] L1 L2 L3; try discriminate; [reflexivity|]. cbn. f_equal. apply IH; cbn in *; lia. }
  apply (f_equal (sumf (fun z : list R * R => nth j (fst z) 0 * (nth i (fst z) 0 * snd z)))) in H. rewrite !sumf_map in H. exact H.
Qed.
Lemma grhs_lin a b p drow : forall X Sg Y Y', length Sg = length X -> length Y = length X -> length Y' = length X ->
  grhs (mkobs drow X Sg (lincomb a b Y Y')) p = lincomb a b (grhs (mkobs drow X Sg Y) p) (grhs (mkobs drow X Sg Y') p).
Proof.
  intros X Sg Y Y' L1 L2 L3. unfold grhs at 2 3. unfold lincomb at 2. rewrite combine_map, map_map. unfold grhs. apply map_ext. intro i. cbn [fst snd].
  revert Sg Y Y' L1 L2 L3. induction X as [|t X IH]; intros [|s Sg] [|y Y] [|y' Y'] L1 L2 L3; try discriminate; [cbn; ring|].
  specialize (IH Sg Y Y'). unfold lincomb in *. cbn [combine map mkobs sumf fst snd]. rewrite IH by (cbn in *; lia). unfold orow, owt, oy. cbn [fst snd]. ring.
Qed.
Theorem transit_linear : forall k periods t0s P T0 x y1 y2 y yerr ts v1 v2 sigma a b K1 K2, consts_ok k ->
  measures periods (u_day k) P -> measures t0s (u_day k) T0 -> (length P <= length T0)%nat ->
  rv_data k x y1 yerr ts v1 sigma -> rv_data k x y2 yerr ts v2 sigma -> rv_data k x y yerr ts (lincomb a b v1 v2) sigma ->
  estimate_semi_amplitude k periods x y1 yerr (Some t0s) = Ok K1 -> estimate_semi_amplitude k periods x y2 yerr (Some t0s) = Ok K2 ->
  estimate_semi_amplitude k periods x y yerr (Some t0s) = Ok (lincomb a b K1 K2).
Proof.
  intros k periods t0s P T0 x y1 y2 y yerr ts v1 v2 sigma a b K1 K2 OK MP MT LT D1 D2 D E1 E2.
  rewrite (transit_form _ _ _ _ _ _ _ _ _ OK MP D1 _ _ MT LT) in E1. rewrite (transit_form _ _ _ _ _ _ _ _ _ OK MP D2 _ _ MT LT) in E2. rewrite (transit_form _ _ _ _ _ _ _ _ _ OK MP D _ _ MT LT).
  assert (LS := sigma_length _ _ _ _ _ _ _ D). assert (L1 := rv_len _ _ _ _ _ _ _ D1). assert (L2 := rv_len _ _ _ _ _ _ _ D2). assert (L := rv_len _ _ _ _ _ _ _ D).
  unfold est_obs in *. rewrite (gram_eq _ _ ts sigma v1 (lincomb a b v1 v2) LS L1 L) in E1. rewrite (gram_eq _ _ ts sigma v2 (lincomb a b v1 v2) LS L2 L) in E2.
  rewrite grhs_lin by assumption.
  destruct (linsolve _ (grhs (mkobs _ ts sigma v1) _)) as [w1|] eqn:Q1; [|discriminate]. destruct (linsolve _ (grhs (mkobs _ ts sigma v2) _)) as [w2|] eqn:Q2; [|discriminate].
  cbn [rmap] in E1, E2. injection E1 as <-. injection E2 as <-.
  rewrite (linsolve_lin a b _ _ _ _ _ Q1 Q2). cbn [rmap]. f_equal.
  destruct (linsolve_sound _ _ _ Q1) as (W1 & _). destruct (linsolve_sound _ _ _ Q2) as (W2 & _). apply (removelast_lincomb a b _ w1 w2 W1 W2).
Qed.
Lemma amplitudes_scale l : forall n w, length w = (2 * n)%nat -> amplitudes (map (Rmult l) w) = map (Rmult (Rabs l)) (amplitudes w).
Proof.
  induction n as [|n IH]; intros w L; [destruct w; [reflexivity|discriminate]|]. destruct w as [|x [|y w]]; try (cbn in L; lia). cbn [map amplitudes]. rewrite IH by (cbn in L; lia). f_equal.
  replace (l * x * (l * x) + l * y * (l * y)) with (Rsqr l * (x * x + y * y)) by (unfold Rsqr; ring). rewrite sqrt_mult_alt by apply Rle_0_sqr. rewrite sqrt_Rsqr_abs. reflexivity.
Qed.
Lemma lincomb_scale l w : lincomb l 0 w w = map (Rmult l) w.
Proof. unfold lincomb. induction w as [|x w IH]; [reflexivity|]. cbn [combine map fst snd]. rewrite IH. f_equal. ring. Qed.
Lemma removelast_map l (w : list R) : removelast (map (Rmult l) w) = map (Rmult l) (removelast w).
Proof. induction w as [|x [|y w] IH]; [reflexivity|reflexivity|]. cbn [map removelast] in *. f_equal. exact IH. Qed.
Theorem phase_homogeneous : forall k periods P x y1 y yerr ts v1 sigma l K1, consts_ok k -> measures periods (u_day k) P ->
  rv_data k x y1 yerr ts v1 sigma -> rv_data k x y yerr ts (map (Rmult l) v1) sigma ->
  estimate_semi_amplitude k periods x y1 yerr None = Ok K1 -> estimate_semi_amplitude k periods x y yerr None = Ok (map (Rmult (Rabs l)) K1).
Proof.
  intros k periods P x y1 y yerr ts v1 sigma l K1 OK MP D1 D E1.
  rewrite (phase_form _ _ _ _ _ _ _ _ _ OK MP D1) in E1. rewrite (phase_form _ _ _ _ _ _ _ _ _ OK MP D).
  assert (LS := sigma_length _ _ _ _ _ _ _ D). assert (L1 := rv_len _ _ _ _ _ _ _ D1). assert (L := rv_len _ _ _ _ _ _ _ D).
  unfold est_obs in *. rewrite (gram_eq _ _ ts sigma v1 (map (Rmult l) v1) LS L1 L) in E1. rewrite <- (lincomb_scale l v1) at 2. rewrite grhs_lin by assumption.
  destruct (linsolve _ (grhs (mkobs _ ts sigma v1) _)) as [w1|] eqn:Q1; [|discriminate]. cbn [rmap] in E1. injection E1 as <-.
  rewrite (linsolve_lin l 0 _ _ _ _ _ Q1 Q1). cbn [rmap]. f_equal. rewrite lincomb_scale, removelast_map.
  destruct (linsolve_sound _ _ _ Q1) as (W1 & _). rewrite gram_length in W1. unfold est_p in W1. apply (amplitudes_scale l (length P)). apply removelast_length. exact W1.
Qed.

(** ** without the transit times *)
Definition tp_A (z : R * R * R) : R := - snd z * cos (2 * PI * snd (fst z) / fst (fst z)).
Definition tp_B (z : R * R * R) : R := snd z * sin (2 * PI * snd (fst z) / fst (fst z)).
Lemma transit_phase P : forall T0 Ks c t, List.Forall (fun p => p <> 0) P -> length T0 = length P -> length Ks = length P ->
  transit_model P T0 Ks c t = phase_model P (map tp_A (combine (combine P T0) Ks)) (map tp_B (combine (combine P T0) Ks)) c t.
Proof.
  induction P as [|p P IH]; intros [|t0 T0] [|K Ks] c t F L1 L2; try discriminate; [reflexivity|]. inversion F; subst. cbn [transit_model combine map phase_model]. rewrite IH by (assumption || (cbn in *; lia)).
  unfold transit_signal, tp_A, tp_B. cbn [fst snd]. replace (2 * PI * (t - t0) / p) with (2 * PI * t / p - 2 * PI * t0 / p) by (field; assumption). rewrite sin_minus. ring.
Qed.
Lemma transit_phase_amp P : forall T0 Ks, length T0 = length P -> length Ks = length P -> amplitude_list (map tp_A (combine (combine P T0) Ks)) (map tp_B (combine (combine P T0) Ks)) = map Rabs Ks.
Proof.
  induction P as [|p P IH]; intros [|t0 T0] [|K Ks] L1 L2; try discriminate; [reflexivity|]. specialize (IH T0 Ks). unfold amplitude_list in *. cbn [combine map fst snd]. rewrite IH by (cbn in *; lia). f_equal.
  unfold tp_A, tp_B. cbn [fst snd]. replace ((- K * cos (2 * PI * t0 / p)) ^ 2 + (K * sin (2 * PI * t0 / p)) ^ 2) with (Rsqr K * (Rsqr (sin (2 * PI * t0 / p)) + Rsqr (cos (2 * PI * t0 / p)))) by (unfold Rsqr; ring).
  rewrite sin2_cos2, Rmult_1_r. apply sqrt_Rsqr_abs.
Qed.
Section ORB.
Variables (k : consts) (os : list (orbit R)) (c : R) (periods x y : qty (list R)) (yerr : option (qty (list R))) (ts vs sigma : list R).
Let P := map (fun o => o_period o) os.
Let T0 := map (fun o => o_t0 o) os.
Hypothesis OK : consts_ok k.
Hypothesis C : List.Forall (circular_orbit k) os.
Hypothesis MP : measures periods (u_day k) P.
Hypothesis MD : rv_data k x y yerr ts vs sigma.
Lemma phase_orbits Ks : length Ks = length os -> phase_identifiable P ts -> vs = map (transit_model P T0 Ks c) ts -> estimate_semi_amplitude k periods x y yerr None = Ok (map Rabs Ks).
Proof using OK C MP MD.
  intros LK J EV. assert (LP : length T0 = length P) by (unfold P, T0; rewrite !map_length; reflexivity). assert (LK' : length Ks = length P) by (unfold P; rewrite map_length; exact LK).
  rewrite <- (transit_phase_amp P T0 Ks LP LK'). assert (LC : length (combine (combine P T0) Ks) = length P) by (rewrite !combine_length; lia).
  refine (phase_exact k periods x y yerr P ts vs sigma OK MP MD _ _ c _ _ J _); [rewrite map_length; exact LC|rewrite map_length; exact LC|].
  rewrite EV. apply map_ext. intro t. apply transit_phase; [exact (circ_periods k os C)|exact LP|exact LK'].
Qed.
End ORB.
Theorem rv_orbits_phase : forall k os Ks c periods x y yerr ts vs sigma,
  consts_ok k -> List.Forall (circular_orbit k) os -> length Ks = length os ->
  measures periods (u_day k) (map (fun o => o_period o) os) -> rv_data k x y yerr ts vs sigma -> phase_identifiable (map (fun o => o_period o) os) ts ->
  Forall2 (fun t v => exists r, orbits_rv k os Ks t = Ok r /\ v = r + c) ts vs ->
  estimate_semi_amplitude k periods x y yerr None = Ok (map Rabs Ks).
Proof.
  intros k os Ks c periods x y yerr ts vs sigma OK C LK MP MD J D.
  apply (phase_orbits k os c periods x y yerr ts vs sigma OK C MP MD Ks LK J).
  apply Forall2_map_eq. revert D. apply Forall2_imp. intros t v (r & E & ->).
  destruct (orbits_rv_model k os Ks c t OK C LK) as (r' & E' & Q). rewrite E in E'. injection E' as <-. exact Q.
Qed.
Lemma mass_list k m os (f : R -> R) : consts_ok k -> 0 < m -> List.Forall (circular_orbit k) os -> (forall a b, 0 < a -> f (a * b) = a * f b) ->
  map (fun z => fst z / 28.4329 * Rpower m (2 / 3) * Rpower (snd z / 365.25) (1 / 3)) (combine (map f (map (mass_K k) os)) (map (fun o => o_period o) os)) =
  map (fun o => f (o_m_planet o * o_sin_incl o) * Rpower (m / (o_m_star o + o_m_planet o)) (2 / 3) * (solar_K k 365.25 1 / 28.4329)) os.
Proof.
  intros OK Hm C Hf. induction C as [|o os H C IH]; [reflexivity|]. cbn [map combine fst snd]. rewrite IH. f_equal. destruct H as (_ & ph & _).
  assert (HP := ph_period _ ph). assert (HM := ph_m_total _ ph). unfold mass_K. rewrite Hf.
  - apply mass_kepler_one; assumption.
  - unfold solar_K. assert (O1 := ok_d _ OK). assert (O2 := ok_mps _ OK). assert (O3 := ok_R _ OK).
    apply Rdiv_lt_0_compat; [|apply exp_pos]. apply Rmult_lt_0_compat; [|apply exp_pos]. apply Rdiv_lt_0_compat; [|assumption]. apply Rdiv_lt_0_compat; assumption.
Qed.
Theorem mass_orbits : forall k mJ os c ms m periods t0s x y yerr ts vs sigma,
  consts_ok k -> List.Forall (circular_orbit k) os -> solar_masses k ms m -> 0 < m ->
  measures periods (u_day k) (map (fun o => o_period o) os) -> measures t0s (u_day k) (map (fun o => o_t0 o) os) ->
  rv_data k x y yerr ts vs sigma -> transit_identifiable (map (fun o => o_period o) os) (map (fun o => o_t0 o) os) ts ->
  Forall2 (fun t v => exists r, masses_rv k os t = Ok r /\ v = r + c) ts vs ->
  estimate_minimum_mass k mJ periods x y yerr (Some t0s) ms =
    Ok (Q (map (fun o => o_m_planet o * o_sin_incl o * Rpower (m / (o_m_star o + o_m_planet o)) (2 / 3) * (solar_K k 365.25 1 / 28.4329)) os) (Some mJ)).
Proof.
  intros k mJ os c ms m periods t0s x y yerr ts vs sigma OK C MS Hm MP MT MD J D.
  assert (E : estimate_semi_amplitude k periods x y yerr (Some t0s) = Ok (map (fun z => z) (map (mass_K k) os))).
  { rewrite map_id. apply (transit_exact k periods x y yerr _ ts vs sigma OK MP MD t0s _ MT (circ_periods k os C)) with (c := c); [rewrite !map_length; lia|rewrite !map_length; lia|exact J|].
    apply Forall2_map_eq. revert D. apply Forall2_imp. intros t v (r & E & ->).
    destruct (masses_rv_model k os c t OK C) as (r' & E' & Q). rewrite E in E'. injection E' as <-. exact Q. }
  destruct (mass_formula k mJ _ _ _ _ _ ms _ m _ OK MP MS E) as [-> _]. rewrite (mass_list k m os (fun z => z) OK Hm C) by (intros; ring). reflexivity.
Qed.
Theorem mass_orbits_phase : forall k mJ os c ms m periods x y yerr ts vs sigma,
  consts_ok k -> List.Forall (circular_orbit k) os -> solar_masses k ms m -> 0 < m ->
  measures periods (u_day k) (map (fun o => o_period o) os) ->
  rv_data k x y yerr ts vs sigma -> phase_identifiable (map (fun o => o_period o) os) ts ->
  Forall2 (fun t v => exists r, masses_rv k os t = Ok r /\ v = r + c) ts vs ->
  estimate_minimum_mass k mJ periods x y yerr None ms =
    Ok (Q (map (fun o => Rabs (o_m_planet o * o_sin_incl o) * Rpower (m / (o_m_star o + o_m_planet o)) (2 / 3) * (solar_K k 365.25 1 / 28.4329)) os) (Some mJ)).
Proof.
  intros k mJ os c ms m periods x y yerr ts vs sigma OK C MS Hm MP MD J D.
  assert (E : estimate_semi_amplitude k periods x y yerr None = Ok (map Rabs (map (mass_K k) os))).
  { apply (phase_orbits k os c periods x y yerr ts vs sigma OK C MP MD); [rewrite !map_length; reflexivity|exact J|].
    apply Forall2_map_eq. revert D. apply Forall2_imp. intros t v (r & E & ->).
    destruct (masses_rv_model k os c t OK C) as (r' & E' & Q). rewrite E in E'. injection E' as <-. exact Q. }
  destruct (mass_formula k mJ _ _ _ _ _ ms _ m _ OK MP MS E) as [-> _]. rewrite (mass_list k m os Rabs OK Hm C); [reflexivity|]. intros a b Ha. rewrite Rabs_mult, (Rabs_pos_eq a) by lra. reflexivity.
Qed.
