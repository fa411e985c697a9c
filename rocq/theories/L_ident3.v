(** * What radial velocities and positions on the sky determine *)
From Coq Require Import Reals Lra Lia Bool List ZArith Psatz.
From Coquelicot Require Import Coquelicot.
From Verif Require Import Num CoreOps Inst M_units M_kepler Spec_orbit Spec_params Spec_sym Spec_ident.
From Verif Require Import L_real L_kepop L_orbit L_motion L_params3 L_params4 L_pmotion L_pmotion2 L_pmotion5 L_rvmean L_ident L_ident2.
Open Scope R_scope.

Lemma rv_determines : forall k (x x' : kargs R) o o' K K' u u', consts_ok k -> kep_init k x = Ok o -> kep_init k x' = Ok o' -> physical o -> physical o' -> same_t0 o o' -> 0 < K -> 0 < K' ->
  ((forall t, get_radial_velocity k o (kep_warp o) t (Some K) u = get_radial_velocity k o' (kep_warp o') t (Some K') u') <-> K = K' /\ same_timing o o').
Proof.
  intros k x x' o o' K K' u u' kok Hi Hi' Hp Hp' S HK HK'. split.
  - intro H. assert (E : forall t, rvf o K t = rvf o' K' t).
    { intro t. specialize (H t). rewrite (rvf_is k x o kok Hi Hp), (rvf_is k x' o' kok Hi' Hp') in H. apply Ok_inj in H. exact H. }
    destruct (identify k x x' o o' kok Hi Hi' Hp Hp' K K' HK HK' E) as (A & B & C & D & F & G). split; [exact A|]. split; [exact B|]. split; [exact C|]. split; [exact D|]. split; [exact F|exact (G S)].
  - intros (<- & A & B & C & D & Z) t. rewrite (rvf_is k x o kok Hi Hp), (rvf_is k x' o' kok Hi' Hp'). f_equal. apply (identical k x x' o o' kok Hi Hi' Hp Hp'); assumption.
Qed.
Lemma rv_masses : forall k (x x' : kargs R) o o' u c, consts_ok k -> kep_init k x = Ok o -> kep_init k x' = Ok o' -> physical o -> physical o' -> same_t0 o o' ->
  uto (u_Rsun_per_day k) u = Ok c -> 0 < c -> 0 < o_m_planet o -> 0 < o_m_planet o' -> 0 < sin (o_incl o) -> 0 < sin (o_incl o') ->
  ((forall t, get_radial_velocity k o (kep_warp o) t None (Some u) = get_radial_velocity k o' (kep_warp o') t None (Some u)) <-> amplitude o = amplitude o' /\ same_timing o o').
Proof.
  intros k x x' o o' u c kok Hi Hi' Hp Hp' S Hu Hc Hm Hm' Hs Hs'.
  assert (G : forall y o1, kep_init k y = Ok o1 -> physical o1 -> 0 < o_m_planet o1 -> 0 < sin (o_incl o1) -> 0 < amplitude o1 /\ forall t, get_radial_velocity k o1 (kep_warp o1) t None (Some u) = get_radial_velocity k o1 (kep_warp o1) t (Some (c * amplitude o1)) None).
  { intros y o1 H1 P1 M1 I1. destruct (rv_amplitude k y o1 kok H1 P1) as (K & A & B). cbv zeta in A, B. destruct B as [B _]. fold (amplitude o1) in B. split.
    - unfold amplitude. assert (a1 := ph_a _ P1). assert (p1 := ph_period _ P1). assert (F1 := kep_init_facts k kok y o1 H1 P1). assert (t1 := ph_m_total _ P1). rewrite (of_mtot _ _ _ F1). assert (Q1 := qo_pos o1 P1). unfold qo, eo in Q1. assert (PP := PI_RGT_0).
      apply Rdiv_lt_0_compat; [|exact Q1]. apply Rmult_lt_0_compat; [|exact I1]. apply Rmult_lt_0_compat; apply Rdiv_lt_0_compat; try lra. apply Rmult_lt_0_compat; lra.
    - intro t. rewrite <- B. apply A. exact Hu. }
  destruct (G x o Hi Hp Hm Hs) as [P R]. destruct (G x' o' Hi' Hp' Hm' Hs') as [P' R'].
  assert (D := rv_determines k x x' o o' (c * amplitude o) (c * amplitude o') None None kok Hi Hi' Hp Hp' S (Rmult_lt_0_compat _ _ Hc P) (Rmult_lt_0_compat _ _ Hc P')).
  split.
  - intro H. destruct (proj1 D) as [E T]; [intro t; rewrite <- R, <- R'; apply H|]. split; [apply (Rmult_eq_reg_l c); lra|exact T].
  - intros [E T] t. rewrite R, R'. apply D. split; [rewrite E; reflexivity|exact T].
Qed.
Lemma sky_determines : forall k (x x' : kargs R) o o', consts_ok k -> kep_init k x = Ok o -> kep_init k x' = Ok o' -> physical o -> physical o' ->
  (forall t, vx (pos k o Relative t None false) = vx (pos k o' Relative t None false) /\ vy (pos k o Relative t None false) = vy (pos k o' Relative t None false)) ->
  o_a o = o_a o' /\ o_period o = o_period o' /\ ecc_of o = ecc_of o' /\
  ((forall t, pos k o' Relative t None false = pos k o Relative t None false) \/ forall t, pos k o' Relative t None false = flip_z (pos k o Relative t None false)).
Proof.
  intros k x x' o o' kok Hi Hi' Hp Hp' H. unfold pos in *.
  assert (E : forall t, get_relative_position k o (kep_warp o) t None false = lin o (- o_a o) t). { intro t. rewrite (rel_pos k kok x o Hi Hp). cbn [plxf]. rewrite Rmult_1_r. reflexivity. }
  assert (E' : forall t, get_relative_position k o' (kep_warp o') t None false = lin o' (- o_a o') t). { intro t. rewrite (rel_pos k kok x' o' Hi' Hp'). cbn [plxf]. rewrite Rmult_1_r. reflexivity. }
  destruct (reflection k x x' o o' kok Hi Hi' Hp Hp') as (A & B & C & D).
  { intro t. rewrite <- E, <- E'. apply H. } { intro t. rewrite <- E, <- E'. apply H. }
  split; [exact A|]. split; [exact B|]. split; [exact C|]. destruct D as [D|D]; [left|right]; intro t; rewrite E, E'; apply D.
Qed.
(** one velocity along the line of sight tells which of the two *)
Lemma sky_and_velocity : forall k (x x' : kargs R) o o' t1, consts_ok k -> kep_init k x = Ok o -> kep_init k x' = Ok o' -> physical o -> physical o' ->
  (forall t, vx (pos k o Relative t None false) = vx (pos k o' Relative t None false) /\ vy (pos k o Relative t None false) = vy (pos k o' Relative t None false)) ->
  vz (vel o' Relative t1) * vz (vel o Relative t1) > 0 -> forall t, pos k o' Relative t None false = pos k o Relative t None false.
Proof.
  intros k x x' o o' t1 kok Hi Hi' Hp Hp' H V. destruct (sky_determines k x x' o o' kok Hi Hi' Hp Hp' H) as (_ & _ & _ & [D|D]); [exact D|exfalso].
  assert (E : forall t, get_relative_position k o (kep_warp o) t None false = lin o (- o_a o) t). { intro t. rewrite (rel_pos k kok x o Hi Hp). cbn [plxf]. rewrite Rmult_1_r. reflexivity. }
  assert (E' : forall t, get_relative_position k o' (kep_warp o') t None false = lin o' (- o_a o') t). { intro t. rewrite (rel_pos k kok x' o' Hi' Hp'). cbn [plxf]. rewrite Rmult_1_r. reflexivity. }
  unfold pos, vel in *. rewrite (rel_vel k kok x o Hi Hp) in *. rewrite (rel_vel k kok x' o' Hi' Hp') in *.
  destruct (lin_vderive o Hp (- o_a o) t1) as (_ & _ & D1). destruct (lin_vderive o' Hp' (- o_a o') t1) as (_ & _ & D2).
  assert (Q : vz (vlin o' (- o_a o') t1) = - vz (vlin o (- o_a o) t1)).
  { rewrite <- (is_derive_unique _ _ _ D1), <- (is_derive_unique _ _ _ D2), <- Derive_opp. apply Derive_ext. intro t. rewrite <- E, <- E', D. reflexivity. }
  rewrite Q in V. nra.
Qed.
(** ** the twin *)
Record turned (o o' : orbit R) : Prop := {
  tu_a : o_a o' = o_a o; tu_P : o_period o' = o_period o; tu_rs : o_r_star o' = o_r_star o; tu_ms : o_m_star o' = o_m_star o; tu_mp : o_m_planet o' = o_m_planet o; tu_mt : o_m_total o' = o_m_total o;
  tu_n : o_n o' = o_n o; tu_as : o_a_star o' = o_a_star o; tu_ap : o_a_planet o' = o_a_planet o; tu_K : o_K0 o' = o_K0 o;
  tu_ci : o_cos_incl o' = o_cos_incl o; tu_si : o_sin_incl o' = o_sin_incl o; tu_tp : o_tper o' = o_tper o;
  tu_cO : cosO o' = - cosO o; tu_sO : sinO o' = - sinO o;
  tu_ecc : exists d d', o_ecc o = Some d /\ o_ecc o' = Some d' /\ e_ecc d' = e_ecc d /\ e_cosw d' = - e_cosw d /\ e_sinw d' = - e_sinw d }.
Lemma twin_omega (x : kargs R) ed : kep_omega x = Ok ed -> ka_ecc x <> None ->
  exists d d', ed = Some d /\ kep_omega (twin x) = Ok (Some d') /\ e_ecc d' = e_ecc d /\ e_cosw d' = - e_cosw d /\ e_sinw d' = - e_sinw d.
Proof.
  unfold kep_omega, twin. cbn [ka_ecc ka_omega ka_sin_omega ka_cos_omega]. destruct (ka_ecc x) as [e|]; [intros H _|intros _ H; elim H; reflexivity].
  destruct (ka_omega x) as [w|]; cbn [option_map].
  - exists {| e_ecc := e; e_omega := w; e_cosw := cos w; e_sinw := sin w |}, {| e_ecc := e; e_omega := w + PI; e_cosw := cos (w + PI); e_sinw := sin (w + PI) |}.
    assert (E : is_none (option_map Ropp (ka_cos_omega x)) = is_none (ka_cos_omega x)) by (destruct (ka_cos_omega x); reflexivity).
    assert (E' : is_none (option_map Ropp (ka_sin_omega x)) = is_none (ka_sin_omega x)) by (destruct (ka_sin_omega x); reflexivity). rewrite E, E'.
    destruct (negb (is_none (ka_sin_omega x)) && negb (is_none (ka_cos_omega x))); [discriminate H|]. apply Ok_inj in H. subst ed. split; [reflexivity|]. split; [reflexivity|]. split; [reflexivity|]. split; [apply neg_cos|apply neg_sin].
  - destruct (ka_sin_omega x) as [s|]; [|discriminate]. destruct (ka_cos_omega x) as [c|]; [|discriminate]. cbn [option_map]. apply Ok_inj in H. subst ed.
    eexists _, _. split; [reflexivity|]. split; [reflexivity|]. cbn [e_ecc e_cosw e_sinw]. split; [reflexivity|]. split; reflexivity.
Qed.
Lemma twin_init k (x : kargs R) o : kep_init k x = Ok o -> ka_ecc x <> None -> ka_tper x <> None -> ka_b x = None -> ka_duration x = None ->
  exists o', kep_init k (twin x) = Ok o' /\ turned o o'.
Proof.
  unfold kep_init. change (kep_units (twin x)) with (kep_units x). change (kep_duration (twin x)) with (kep_duration x).
  change (ka_period (twin x)) with (ka_period x). change (ka_m_star (twin x)) with (ka_m_star x). change (ka_Omega (twin x)) with (Some (node_angle x + PI)).
  intros H He Ht Hb Hd. destruct (kep_units x) as [[mp rho]|]; cbn [rbind] in *; [|discriminate].
  assert (KD : kep_duration x = Ok (ka_a x, ka_r_star x, None, None)) by (unfold kep_duration; rewrite Hd; destruct (ka_ecc x); reflexivity). rewrite KD in H |- *. cbn [rbind] in H |- *.
  destruct (consistent_inputs k (ka_a x) (ka_period x) rho (ka_r_star x) (ka_m_star x) mp) as [[[[[[a' p] rho'] rs'] ms] mp']|]; cbn [rbind] in *; [|discriminate].
  destruct (kep_omega x) as [ed|] eqn:EW; cbn [rbind] in *; [|discriminate]. destruct (twin_omega x ed EW He) as (d & d' & -> & EW' & E1 & E2 & E3). rewrite EW'. cbn [rbind].
  unfold kep_incl in *. change (ka_b (twin x)) with (ka_b x). change (ka_incl (twin x)) with (ka_incl x). rewrite Hb in *. unfold kep_times in *. change (ka_t0 (twin x)) with (ka_t0 x). change (ka_tper (twin x)) with (ka_tper x).
  destruct (ka_tper x) as [tp|]; [|elim Ht; reflexivity]. destruct (ka_t0 x) as [t0|].
  { destruct (ka_incl x); cbn [rbind negb is_none] in H; discriminate H. }
  assert (FO : forall o1 o2 : orbit R, o_Omega o1 = match ka_Omega x with None => None | Some w => Some {| O_Omega := w; O_cos := ncos w; O_sin := nsin w |} end ->
     o_Omega o2 = Some {| O_Omega := node_angle x + PI; O_cos := ncos (node_angle x + PI); O_sin := nsin (node_angle x + PI) |} -> cosO o2 = - cosO o1 /\ sinO o2 = - sinO o1).
  { intros o1 o2 A B. unfold cosO, sinO. rewrite A, B. cbn [O_cos O_sin]. change (cos (node_angle x + PI) = - match match ka_Omega x with None => None | Some w => Some {| O_Omega := w; O_cos := ncos w; O_sin := nsin w |} end with None => 1 | Some w => O_cos w end /\ sin (node_angle x + PI) = - match match ka_Omega x with None => None | Some w => Some {| O_Omega := w; O_cos := ncos w; O_sin := nsin w |} end with None => 0 | Some w => O_sin w end).
    rewrite neg_cos, neg_sin. unfold node_angle. destruct (ka_Omega x); cbn; [split; reflexivity|rewrite cos_0, sin_0; split; reflexivity]. }
  destruct (ka_incl x) as [i|]; cbn [rbind negb is_none] in *; apply Ok_inj in H; subst o; eexists; (split; [reflexivity|]);
    (constructor; try reflexivity; [cbn [o_K0]; rewrite E1; reflexivity|apply FO; reflexivity|apply FO; reflexivity|exists d, d'; cbn [o_ecc]; auto]).
Qed.
Section U.
Variables (k : consts) (x x' : kargs R) (o o' : orbit R).
Hypothesis kok : consts_ok k.
Hypothesis Hi : kep_init k x = Ok o.
Hypothesis Hi' : kep_init k x' = Ok o'.
Hypothesis Hp : physical o.
Hypothesis Tu : turned o o'.
Lemma turned_facts : ecc_of o' = ecc_of o /\ cosw_of o' = - cosw_of o /\ sinw_of o' = - sinw_of o.
Proof. destruct (tu_ecc _ _ Tu) as (d & d' & E & E' & A & B & C). unfold ecc_of, cosw_of, sinw_of. rewrite E, E'. auto. Qed.
Lemma turned_physical : physical o'.
Proof.
  destruct Hp. destruct (tu_ecc _ _ Tu) as (d & d' & E & E' & A & B & C).
  constructor; rewrite ?(tu_a _ _ Tu), ?(tu_P _ _ Tu), ?(tu_rs _ _ Tu), ?(tu_ms _ _ Tu), ?(tu_mp _ _ Tu), ?(tu_ci _ _ Tu); try assumption.
  - intros e' Q. rewrite E' in Q. injection Q as <-. rewrite A. apply ph_ecc. exact E.
  - intros e' Q. rewrite E' in Q. injection Q as <-. rewrite B, C. specialize (ph_omega d E). lra.
Qed.
Lemma turned_M t : Mof o' t = Mof o t.
Proof. unfold Mof. rewrite (tu_tp _ _ Tu), (tu_n _ _ Tu). reflexivity. Qed.
Lemma turned_E : eo o' = eo o /\ qo o' = qo o /\ forall t, Eof o' t = Eof o t /\ Dof o' t = Dof o t.
Proof.
  destruct turned_facts as (E & _ & _). unfold qo, Dof, Eof, eo. rewrite E. split; [reflexivity|]. split; [reflexivity|]. intro t. rewrite turned_M. split; reflexivity.
Qed.
Lemma turned_PQ : Pv o' = flip_z (Pv o) /\ Qv o' = flip_z (Qv o).
Proof.
  destruct turned_facts as (_ & C & S). unfold Pv, Qv, flip_z, vx, vy, vz. cbn [fst snd]. rewrite (tu_cO _ _ Tu), (tu_sO _ _ Tu), (tu_ci _ _ Tu), (tu_si _ _ Tu), C, S. split; apply f_equal2; try apply f_equal2; ring.
Qed.
Lemma turned_lin c t : lin o' c t = flip_z (lin o c t) /\ vlin o' c t = flip_z (vlin o c t) /\ alin o' c t = flip_z (alin o c t).
Proof.
  destruct turned_PQ as [P Q]. destruct turned_E as (E1 & E2 & E3). destruct (E3 t) as [E4 E5]. unfold lin, vlin, alin, px, py. rewrite P, Q, E1, E2, E4, E5, (tu_n _ _ Tu).
  unfold flip_z, vadd, vscale, vx, vy, vz. cbn [fst snd]. split; [|split]; apply f_equal2; try reflexivity; ring.
Qed.
Lemma turned_rv t K u : get_radial_velocity k o' (kep_warp o') t K u = rmap Ropp (get_radial_velocity k o (kep_warp o) t K u).
Proof.
  assert (Hp' := turned_physical). destruct K as [K|].
  - rewrite (rvf_is k x o kok Hi Hp), (rvf_is k x' o' kok Hi' Hp'). cbn [rmap rbind]. f_equal. unfold rvf. destruct turned_facts as (-> & -> & ->). rewrite turned_M. ring.
  - unfold get_radial_velocity. set (out := match u with None => _ | Some v => v end). destruct (uto (u_Rsun_per_day k) out) as [c|]; cbn [rbind rmap]; [|reflexivity].
    rewrite (star_vel k kok x o Hi Hp), (star_vel k kok x' o' Hi' Hp'), (tu_as _ _ Tu), (proj1 (proj2 (turned_lin _ t))). destruct (vlin o (o_a_star o) t) as [[a b] z]. cbn [flip_z]. unfold flip_z, vz. cbn. f_equal. ring.
Qed.
End U.
Lemma twin_motion : forall k (x : kargs R) o, consts_ok k -> kep_init k x = Ok o -> physical o -> ka_ecc x <> None -> ka_tper x <> None -> ka_b x = None -> ka_duration x = None ->
  exists o', kep_init k (twin x) = Ok o' /\ physical o' /\ forall t,
    (forall b par, pos k o' b t par false = flip_z (pos k o b t par false)) /\ (forall b, vel o' b t = flip_z (vel o b t)) /\
    (forall par, get_relative_angles k o' (kep_warp o') t par false = get_relative_angles k o (kep_warp o) t par false) /\
    (forall K u, get_radial_velocity k o' (kep_warp o') t K u = rmap Ropp (get_radial_velocity k o (kep_warp o) t K u)).
Proof.
  intros k x o kok Hi Hp He Ht Hb Hd. destruct (twin_init k x o Hi He Ht Hb Hd) as (o' & Hi' & Tu). assert (Hp' := turned_physical o o' Hp Tu).
  exists o'. split; [exact Hi'|]. split; [exact Hp'|]. intro t.
  assert (P : forall b par, pos k o' b t par false = flip_z (pos k o b t par false)).
  { intros b par. destruct b; unfold pos.
    - rewrite (planet_pos k kok x o Hi Hp), (planet_pos k kok (twin x) o' Hi' Hp'), (tu_ap _ _ Tu). apply (turned_lin o o' Tu).
    - rewrite (star_pos k kok x o Hi Hp), (star_pos k kok (twin x) o' Hi' Hp'), (tu_as _ _ Tu). apply (turned_lin o o' Tu).
    - rewrite (rel_pos k kok x o Hi Hp), (rel_pos k kok (twin x) o' Hi' Hp'), (tu_a _ _ Tu). apply (turned_lin o o' Tu). }
  split; [exact P|]. split; [|split].
  - intros b. destruct b; unfold vel.
    + rewrite (planet_vel k kok x o Hi Hp), (planet_vel k kok (twin x) o' Hi' Hp'), (tu_ap _ _ Tu). apply (turned_lin o o' Tu).
    + rewrite (star_vel k kok x o Hi Hp), (star_vel k kok (twin x) o' Hi' Hp'), (tu_as _ _ Tu). apply (turned_lin o o' Tu).
    + rewrite (rel_vel k kok x o Hi Hp), (rel_vel k kok (twin x) o' Hi' Hp'), (tu_a _ _ Tu). apply (turned_lin o o' Tu).
  - intro par. assert (Q := P Relative par). unfold pos, get_relative_position in Q. unfold get_relative_angles. rewrite !sqz3_id in Q.
    assert (R : forall o1 a pad, get_position k o1 (kep_warp o1) a t par false pad = get_position k o1 (kep_warp o1) a t par false false).
    { intros o1 a pad. unfold get_position, position_nodelay, true_anomaly, kep_warp. destruct pad; reflexivity. }
    rewrite (R o'), (R o). rewrite (R o'), (R o) in Q. destruct (get_position k o (kep_warp o) _ t par false false) as [[a b] c]. destruct (get_position k o' (kep_warp o') _ t par false false) as [[a' b'] c']. unfold flip_z, vx, vy, vz in Q. cbn [fst snd] in Q. injection Q as -> -> ->. reflexivity.
  - intros K u. apply (turned_rv k x (twin x) o o' kok Hi Hi' Hp Tu).
Qed.
