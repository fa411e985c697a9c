(** * Units, linearity and the link with the orbit classes *)
From Coq Require Import Reals List Bool Arith ZArith Lia Lra.
From Verif Require Import Num CoreOps Inst M_units M_kepler M_ttv M_rv Spec_orbit Spec_rv L_orbit L_motion L_pmotion L_kepop L_transit4 L_pmotion5 CoreLin L_lin L_rv1 L_rv2 L_rv3.
Import ListNotations.
Open Scope R_scope.

Lemma circ_rv_K k o K t : consts_ok k -> circular_orbit k o -> get_radial_velocity k o (kep_warp o) t (Some K) None = Ok (transit_signal (o_period o) (o_t0 o) K t).
Proof.
  intros OK ((a & H) & ph & Hc).
  assert (F := kep_init_facts k OK a o H ph). assert (HP := ph_period _ ph). assert (Hpi := PI_pos).
  unfold get_radial_velocity, true_anomaly. rewrite Hc. f_equal. unfold transit_signal.
  assert (E : ((kep_warp o true t - o_tref o)%num * o_n o) = PI / 2 + 2 * PI * (t - o_t0 o) / o_period o).
  { unfold kep_warp. rewrite (of_tref _ _ _ F). simR. rewrite (of_t0 _ _ _ F), (of_n _ _ _ F), (of_M0_circ _ _ _ F Hc). field. split; lra. }
  simR. rewrite E. rewrite cos_plus, sin_PI2, cos_PI2. ring.
Qed.
Lemma cube_root x : 0 < x -> Rpower (x * x * x) (1 / 3) = x.
Proof.
  intro H. unfold Rpower. rewrite !ln_mult by nra. replace (1 / 3 * (ln x + ln x + ln x)) with (ln x) by field. apply exp_ln. exact H.
Qed.
Lemma circ_K0 k o : consts_ok k -> circular_orbit k o -> o_K0 o = Rpower (2 * PI * G_grav k / o_period o) (1 / 3) / Rpower (o_m_star o + o_m_planet o) (2 / 3).
Proof.
  intros OK ((a & H) & ph & Hc). assert (F := kep_init_facts k OK a o H ph). assert (HP := ph_period _ ph). assert (Hpi := PI_pos). assert (HG := ok_G _ OK).
  assert (HA := ph_a _ ph). assert (HM := ph_m_total _ ph).
  rewrite (K0_form k OK a o H ph). assert (qo o = 1) as ->.
  { unfold qo, eo, ecc_of. rewrite Hc. replace (1 - 0 * 0) with 1 by ring. apply sqrt_1. }
  rewrite (of_mtot _ _ _ F). assert (HN : 0 < o_n o) by (rewrite (of_n _ _ _ F); apply Rdiv_lt_0_compat; lra).
  set (M := o_m_star o + o_m_planet o) in *.
  assert (E3 : (o_n o * o_a o) * (o_n o * o_a o) * (o_n o * o_a o) = G_grav k * o_n o * M).
  { assert (Q := n2a3 k OK a o H ph). rewrite (of_mtot _ _ _ F) in Q. fold M in Q.
    transitivity (o_n o * (o_n o * o_n o * (o_a o * o_a o * o_a o))); [ring|]. rewrite Q. ring. }
  assert (HNA : 0 < o_n o * o_a o) by (apply Rmult_lt_0_compat; assumption).
  rewrite <- (cube_root (o_n o * o_a o) HNA) at 1. rewrite E3. replace (2 * PI * G_grav k / o_period o) with (G_grav k * o_n o) by (rewrite (of_n _ _ _ F); field; lra).
  rewrite <- Rpower_mult_distr by (try assumption; apply Rmult_lt_0_compat; assumption).
  assert (EM : M = Rpower M (1 / 3) * Rpower M (2 / 3)). { rewrite <- Rpower_plus. replace (1 / 3 + 2 / 3) with 1 by field. symmetry. apply Rpower_1. exact HM. }
  rewrite EM at 2. unfold Rdiv. rewrite Rinv_mult. rewrite Rinv_1, Rmult_1_r.
  assert (0 < Rpower M (1 / 3)) by apply exp_pos. assert (0 < Rpower M (2 / 3)) by apply exp_pos. field. split; lra.
Qed.
Lemma circ_rv_mass k o t : consts_ok k -> circular_orbit k o -> get_radial_velocity k o (kep_warp o) t None None =
  Ok (transit_signal (o_period o) (o_t0 o) (solar_K k (o_period o) (o_m_star o + o_m_planet o) * (o_m_planet o * o_sin_incl o)) t).
Proof.
  intros OK C. assert (K0 := circ_K0 k o OK C). assert (C' := C). destruct C' as ((a & H) & ph & Hc).
  destruct (radial_velocity_law k a o t OK H ph) as (_ & L & L2 & _). rewrite L2.
  rewrite (proj2 (L (u_mps k) (s_R_sun k / s_day k / s_mps k) eq_refl)). rewrite (circ_rv_K k o _ t OK C). f_equal. f_equal. rewrite K0. unfold solar_K.
  assert (0 < Rpower (o_m_star o + o_m_planet o) (2 / 3)) by apply exp_pos. assert (O1 := ok_d _ OK). assert (O2 := ok_mps _ OK). field. repeat split; lra.
Qed.
Lemma orbits_rv_model k os : forall Ks c t, consts_ok k -> List.Forall (circular_orbit k) os -> length Ks = length os ->
  exists r, orbits_rv k os Ks t = Ok r /\ r + c = transit_model (map (fun o => o_period o) os) (map (fun o => o_t0 o) os) Ks c t.
Proof.
  induction os as [|o os IH]; intros [|K Ks] c t OK F L; try discriminate.
  - exists 0. split; [reflexivity|cbn; ring].
  - inversion F; subst. destruct (IH Ks c t OK) as (r & E & Q); [assumption|cbn in L; lia|]. cbn [orbits_rv map transit_model]. rewrite (circ_rv_K k o K t OK) by assumption. cbn [rbind]. rewrite E. cbn [rbind].
    eexists. split; [reflexivity|]. rewrite <- Q. ring.
Qed.
Definition mass_K (k : consts) (o : orbit R) : R := solar_K k (o_period o) (o_m_star o + o_m_planet o) * (o_m_planet o * o_sin_incl o).
Lemma masses_rv_model k os : forall c t, consts_ok k -> List.Forall (circular_orbit k) os ->
  exists r, masses_rv k os t = Ok r /\ r + c = transit_model (map (fun o => o_period o) os) (map (fun o => o_t0 o) os) (map (mass_K k) os) c t.
Proof.
  induction os as [|o os IH]; intros c t OK F.
  - exists 0. split; [reflexivity|cbn; ring].
  - inversion F; subst. destruct (IH c t OK) as (r & E & Q); [assumption|]. cbn [masses_rv map transit_model]. rewrite (circ_rv_mass k o t OK) by assumption. cbn [rbind]. rewrite E. cbn [rbind].
    eexists. split; [reflexivity|]. rewrite <- Q. unfold mass_K. ring.
Qed.

Lemma Forall2_map_eq {A C} (f : A -> C) l l' : Forall2 (fun a c => c = f a) l l' -> l' = map f l.
Proof. induction 1; [reflexivity|]. cbn. subst. reflexivity. Qed.
Lemma Forall2_imp {A C} (R1 R2 : A -> C -> Prop) l l' : (forall a c, R1 a c -> R2 a c) -> Forall2 R1 l l' -> Forall2 R2 l l'.
Proof. intros H F. induction F; constructor; auto. Qed.
Lemma circ_periods k os : List.Forall (circular_orbit k) os -> List.Forall (fun p => p <> 0) (map (fun o => o_period o) os).
Proof.
  intro F. apply Forall_map. apply (Forall_impl _ (P := circular_orbit k)); [|exact F]. intros o (_ & ph & _). assert (H := ph_period _ ph). lra.
Qed.
Theorem rv_orbits : forall k os Ks c periods t0s x y yerr ts vs sigma,
  consts_ok k -> List.Forall (circular_orbit k) os -> length Ks = length os ->
  measures periods (u_day k) (map (fun o => o_period o) os) -> measures t0s (u_day k) (map (fun o => o_t0 o) os) ->
  rv_data k x y yerr ts vs sigma -> transit_identifiable (map (fun o => o_period o) os) (map (fun o => o_t0 o) os) ts ->
  Forall2 (fun t v => exists r, orbits_rv k os Ks t = Ok r /\ v = r + c) ts vs ->
  estimate_semi_amplitude k periods x y yerr (Some t0s) = Ok Ks.
Proof.
  intros k os Ks c periods t0s x y yerr ts vs sigma OK C LK MP MT MD J D.
  apply (transit_exact k periods x y yerr _ ts vs sigma OK MP MD t0s _ MT (circ_periods k os C)) with (c := c); [rewrite !map_length; lia|rewrite map_length; exact LK|exact J|].
  apply Forall2_map_eq. revert D. apply Forall2_imp. intros t v (r & E & ->).
  destruct (orbits_rv_model k os Ks c t OK C LK) as (r' & E' & Q). rewrite E in E'. injection E' as <-. exact Q.
Qed.

(** ** minimum masses *)
Lemma day_identity k P : consts_ok k -> measures (Q P (Some (u_day k))) (u_day k) P.
Proof. intro OK. cbn. repeat split; try reflexivity. apply (ok_d _ OK). Qed.
Definition mass_of (K m p : R) : R := K / 28.4329 * Rpower m (2 / 3) * Rpower (p / 365.25) (1 / 3).
Lemma solar_mass_value k q m : consts_ok k -> solar_masses k q m ->
  match qu q with None => Ok (qv q) | Some v => f <- uto v (u_M_sun k) ;; Ok (qv q * f) end = Ok m.
Proof.
  intros OK M. unfold solar_masses in M. destruct (qu q) as [v|]; [|rewrite M; reflexivity]. destruct M as [D E]. unfold uto. rewrite (dim_eqb_true _ _ D). cbn [rbind u_M_sun uscale].
  f_equal. assert (H := ok_M _ OK). replace (qv q * (uscale v / s_M_sun k)) with (qv q * uscale v / s_M_sun k) by (field; lra). rewrite E. field. lra.
Qed.
Lemma lmap2_masses m : forall K P, length K = length P ->
  lmap2 Rmult (map (fun K => K / 28.4329 * Rpower m (2 / 3)) K) (map (fun p => Rpower (p / 365.25) (1 / 3)) P) = Ok (map (fun z => mass_of (fst z) m (snd z)) (combine K P)).
Proof.
  intros K P L. rewrite lmap2_eq by (rewrite !map_length; exact L). f_equal. revert P L. induction K as [|a K IH]; intros [|p P] L; try discriminate; [reflexivity|]. cbn [map combine fst snd]. f_equal. apply IH. cbn in L. lia.
Qed.
Lemma mass_form k mJ periods x y yerr t0s ms P m K : consts_ok k -> measures periods (u_day k) P -> solar_masses k ms m -> length K = length P ->
  estimate_semi_amplitude k (Q P (Some (u_day k))) x y yerr t0s = Ok K ->
  estimate_minimum_mass k mJ periods x y yerr t0s ms = Ok (Q (map (fun z => mass_of (fst z) m (snd z)) (combine K P)) (Some mJ)).
Proof.
  intros OK MP MS LK E. unfold estimate_minimum_mass. rewrite (measures_value _ _ _ (ok_d _ OK : 0 < uscale (u_day k)) MP). cbn [rbind]. rewrite (solar_mass_value _ _ _ OK MS). cbn [rbind]. rewrite E. cbn [rbind].
  rewrite (lmap2_masses m K P LK). reflexivity.
Qed.
