(** * Proofs of the constructor properties: round trips, units, times, inclination *)
From Coq Require Import Reals Lra Lia ZArith Bool List.
From Coquelicot Require Import Coquelicot.
From Verif Require Import Num CoreOps Inst M_units M_kepler L_real L_kepop Spec_orbit Spec_params L_orbit L_params L_params2 L_motion L_pmotion.
Open Scope R_scope.

Ltac kprojx := cbn [with_ecc set_times set_incl set_a set_duration set_unit_kw set_sizes reargs
  ka_period ka_a ka_t0 ka_tper ka_incl ka_b ka_duration ka_ecc ka_omega
  ka_sin_omega ka_cos_omega ka_Omega ka_m_planet ka_m_star ka_r_star ka_rho_star ka_ror
  ka_m_planet_units ka_rho_star_units].

Lemma Ok_inj {A} (x y : A) : Ok x = Ok y -> x = y.
Proof. intros H. injection H. auto. Qed.

Lemma num_sub_add (t e : R) : nadd (nsub t e) e = t.
Proof. cbn. ring. Qed.
Lemma num_add_sub (t e : R) : nsub (nadd t e) e = t.
Proof. cbn. ring. Qed.

Section S.
Lemma mul_div_id (d b : R) : 0 < d -> d * b / d = b.
Proof. intros. field. lra. Qed.
Lemma mul_div_id' (d b : R) : 0 < d -> d * (b / d) = b.
Proof. intros. field. lra. Qed.
Implicit Types (x : kargs R) (o : orbit R).
Variable k : consts.
Hypothesis kok : consts_ok k.

Lemma kept x o : kep_init k x = Ok o -> no_unit_kw x -> no_duration_a x -> positive_args k x ->
  kept_params k x o.
Proof.
  intros H Hu Hd Hp. destruct (derived_params k kok x o H Hu Hd Hp) as (_ & _ & _ & [s1 s2 s3 s4 s5 s6 s7 s8 s9 s10 s11 s12 s13 s14]).
  constructor; auto.
Qed.

(** ** C03 *)
Lemma ci_round (o : orbit R) (ua up urho ur um : bool) :
  0 < o_a o -> 0 < o_period o -> 0 < o_r_star o -> 0 < o_m_star o -> 0 <= o_m_planet o ->
  G_grav k * (o_m_star o + o_m_planet o) * (o_period o * o_period o) = 4 * (PI * PI) * (o_a o * o_a o * o_a o) ->
  o_rho_star o * (4 * PI * (o_r_star o * o_r_star o * o_r_star o)) = 3 * o_m_star o * gcc_per_sun k ->
  pins ua up urho ur um = true ->
  consistent_inputs k (sel ua (o_a o)) (sel up (o_period o)) (sel urho (o_rho_star o)) (sel ur (o_r_star o))
    (sel um (o_m_star o)) (Some (plain (o_m_planet o)))
  = Ok (o_a o, o_period o, o_rho_star o, o_r_star o, o_m_star o, o_m_planet o).
Proof.
  intros Ha HP HR HM HMP K3 RH Hpin. assert (HG := ok_G _ kok). assert (Hpi := PI_pos).
  assert (Hgc := consts_gcc_pos k kok).
  set (a := o_a o) in *. set (p := o_period o) in *. set (r := o_r_star o) in *. set (m := o_m_star o) in *.
  set (mp := o_m_planet o) in *. set (rho := o_rho_star o) in *.
  assert (Hr3 : 0 < r * r * r) by (repeat apply Rmult_lt_0_compat; auto).
  assert (Erho : rho = 3 * m * gcc_per_sun k / (4 * PI * (r * r * r))).
  { apply Rmult_eq_reg_r with (4 * PI * (r * r * r)); [|nra]. rewrite RH. field. lra. }
  assert (Hrho : 0 < rho). { rewrite Erho. apply Rdiv_lt_0_compat; [|nra]. apply Rmult_lt_0_compat; nra. }
  assert (Erho2 : 3 * m / (4 * PI * (r * (r * r))) * gcc_per_sun k = rho).
  { rewrite Erho. field. split; lra. }
  assert (Ea : Rpowr (G_grav k * (m + mp) * (p * p) / (4 * (PI * PI))) (1 / 3) = a).
  { replace (G_grav k * (m + mp) * (p * p) / (4 * (PI * PI))) with (a * a * a).
    apply Rpowr_cube; auto. rewrite K3. field. lra. }
  assert (Ep : 2 * PI * Rpowr a (3 / 2) / sqrt (G_grav k * (m + mp)) = p).
  { assert (Hs : 0 < sqrt (G_grav k * (m + mp))) by (apply sqrt_lt_R0; nra).
    assert (Hp3 : 0 < Rpowr a (3/2)) by (apply Rpowr_pos; auto).
    set (q := _ / _). assert (0 < q). { apply Rdiv_lt_0_compat; auto. nra. }
    assert (q * q = p * p).
    { unfold q. transitivity (4 * (PI * PI) * (Rpowr a (3/2) * Rpowr a (3/2)) / (sqrt (G_grav k * (m + mp)) * sqrt (G_grav k * (m + mp)))).
      field; lra. rewrite Rpowr_32 by auto. rewrite sqr_sqrt by nra.
      replace (4 * (PI * PI) * (a * (a * a))) with (4 * (PI * PI) * (a * a * a)) by ring. rewrite <- K3. field. split; nra. }
    assert ((q - p) * (q + p) = 0) by lra. apply Rmult_integral in H1. destruct H1; lra. }
  assert (Er : Rpowr (3 * m / (4 * PI * (rho / gcc_per_sun k))) (1 / 3) = r).
  { replace (3 * m / (4 * PI * (rho / gcc_per_sun k))) with (r * r * r).
    apply Rpowr_cube; auto.
    apply Rmult_eq_reg_r with (4 * PI * (rho / gcc_per_sun k)).
    2:{ assert (0 < rho / gcc_per_sun k) by (apply Rdiv_lt_0_compat; auto). nra. }
    transitivity (rho * (4 * PI * (r * r * r)) / gcc_per_sun k). field; lra. rewrite RH. field. repeat split; lra. }
  assert (Em : 4 * PI * (r * (r * r)) * (rho / gcc_per_sun k) / 3 = m).
  { transitivity (rho * (4 * PI * (r * r * r)) / gcc_per_sun k / 3). field; lra. rewrite RH. field. lra. }
  assert (Emt : 4 * PI * PI * (a * (a * a)) / (G_grav k * (p * p)) = m + mp).
  { replace (4 * PI * PI * (a * (a * a))) with (4 * (PI * PI) * (a * a * a)) by ring. rewrite <- K3. field. split; lra. }
  assert (Erg : rho / gcc_per_sun k * gcc_per_sun k = rho) by (field; lra).
  unfold consistent_inputs.
  destruct ua, up, urho, ur, um; try discriminate Hpin; cbn; unfold plain; cbn;
    rewrite ?Emt, ?Em, ?Er, ?Ea, ?Ep, ?Erg, ?Erho2; try reflexivity.
  replace (m + mp - mp) with m by ring.
  replace (m / (4 * PI * (r * (r * r)) / 3) * gcc_per_sun k) with rho by (rewrite Erho; field; lra). reflexivity.
Qed.

Lemma round_trip x o (ua up urho ur um : bool) :
  kep_init k x = Ok o -> no_unit_kw x -> no_duration_a x -> positive_args k x ->
  0 < o_m_star o -> pins ua up urho ur um = true ->
  kep_init k (reargs x o ua up urho ur um) = Ok o.
Proof.
  intros H Hu Hd Hp Hm Hpin.
  destruct (derived_params k kok x o H Hu Hd Hp) as (K3 & RH & _ & S).
  assert (E := init_ci k x o H Hu Hd).
  assert (C := ci_round o ua up urho ur um (cs_A _ _ _ _ _ _ _ _ _ _ _ _ _ S) (cs_P _ _ _ _ _ _ _ _ _ _ _ _ _ S)
    (cs_R _ _ _ _ _ _ _ _ _ _ _ _ _ S) Hm (cs_MP _ _ _ _ _ _ _ _ _ _ _ _ _ S) K3 RH Hpin).
  destruct Hu as [Hu1 Hu2].
  revert H. unfold kep_init, kep_units. rewrite Hu1, Hu2. kprojx. cbn [rbind].
  unfold kep_duration, kep_omega, kep_incl, kep_times. kprojx.
  destruct Hd as [Hd|Hd].
  - rewrite Hd. destruct (ka_ecc x); cbn [rbind]; rewrite C, E; cbn [rbind]; auto.
  - destruct (ka_ecc x); [|congruence]. cbn [rbind]. rewrite C, E. cbn [rbind]. auto.
Qed.

(** ** C04 *)
Lemma to_unit_plain (q : qty R) u v : to_unit q u = Ok v -> to_unit (plain v) u = Ok v.
Proof. reflexivity. Qed.

Lemma conv_opt (q q' : option (qty R)) u : conv_arg q u = Ok q' -> opt_to_unit q u = opt_to_unit q' u /\ is_none q = is_none q'.
Proof.
  unfold conv_arg, opt_to_unit. destruct q as [q|]; [|intros H; inversion H; auto].
  destruct (to_unit q u) eqn:E; cbn; [|discriminate]. intros H; inversion H; subst. auto.
Qed.

Definition rho_expr (q : option (qty R)) : res (option R) :=
  match q with
  | None => Ok None
  | Some q => match qu q with
              | Some _ => rmap Some (to_unit q (u_rho_sun k))
              | None => Ok (Some ((qv q / nlit (gcc_per_sun k))%num))
              end
  end.
Lemma conv_rho q q' : conv_arg q (u_gcc k) = Ok q' -> rho_expr q = rho_expr q'.
Proof.
  unfold conv_arg, rho_expr. destruct q as [q|]; [|intros H; inversion H; auto].
  destruct (to_unit q (u_gcc k)) as [v|] eqn:E; cbn; [|discriminate]. intros H; inversion H; subst.
  etransitivity; [exact (rho_arg k kok q v E)|reflexivity].
Qed.

Lemma preconverted_init x x' : no_unit_kw x -> no_duration_a x -> preconverted k x = Ok x' ->
  kep_init k x = kep_init k x'.
Proof.
  intros [Hu1 Hu2] Hd H. unfold preconverted in H.
  inv_bind H. rename v into p'. inv_bind H. rename v into a'. inv_bind H. rename v into mp'.
  inv_bind H. rename v into ms'. inv_bind H. rename v into rs'. inv_bind H. rename v into rho'.
  inv_bind H. rename v into dur'. inversion H; subst x'; clear H.
  destruct (conv_opt _ _ _ E) as [Ep Np]. destruct (conv_opt _ _ _ E0) as [Ea Na].
  destruct (conv_opt _ _ _ E1) as [Emp Nmp]. destruct (conv_opt _ _ _ E2) as [Ems Nms].
  destruct (conv_opt _ _ _ E3) as [Ers Nrs]. destruct (conv_opt _ _ _ E4) as [_ Nrho].
  assert (Erho := conv_rho _ _ E4). destruct (conv_opt _ _ _ E5) as [Ed Nd].
  assert (CI : consistent_inputs k (ka_a x) (ka_period x) (ka_rho_star x) (ka_r_star x) (ka_m_star x) (ka_m_planet x)
     = consistent_inputs k a' p' rho' rs' ms' mp').
  { unfold consistent_inputs. fold (rho_expr (ka_rho_star x)). fold (rho_expr rho').
    rewrite Ea, Ep, Emp, Na, Np, Nms, Nrs, Nrho, Erho.
    assert (X : forall (b : bool) d, opt_to_unit (if b then d else ka_r_star x) (u_R_sun k)
       = opt_to_unit (if b then d else rs') (u_R_sun k)) by (intros [] d; auto).
    assert (Y : forall (b : bool) d, opt_to_unit (if b then d else ka_m_star x) (u_M_sun k)
       = opt_to_unit (if b then d else ms') (u_M_sun k)) by (intros [] d; auto).
    rewrite X, Y.
    assert (X' : forall (b : bool) (d : qty R), is_none (if b then Some d else ka_r_star x) = is_none (if b then Some d else rs'))
      by (intros [] d; auto).
    assert (Y' : forall (b : bool) (d : qty R), is_none (if b then Some d else ka_m_star x) = is_none (if b then Some d else ms'))
      by (intros [] d; auto).
    rewrite X', Y'.
    assert (Z : match ka_r_star x with None => Ok (nlit 1) | Some q => to_unit q (u_R_sun k) end
      = match rs' with None => Ok (nlit 1) | Some q => to_unit q (u_R_sun k) end).
    { destruct (ka_r_star x), rs'; try discriminate Nrs; auto. unfold opt_to_unit in Ers. cbn in Ers.
      destruct (to_unit q (u_R_sun k)), (to_unit q0 (u_R_sun k)); cbn in Ers; congruence. }
    rewrite Z. reflexivity. }
  assert (ED : match ka_duration x, dur' with Some q, Some q' => to_unit q (u_day k) = to_unit q' (u_day k)
     | None, None => True | _, _ => False end).
  { destruct (ka_duration x), dur'; try discriminate Nd; auto. unfold opt_to_unit in Ed.
      destruct (to_unit q (u_day k)), (to_unit q0 (u_day k)); cbn in Ed; congruence. }
  unfold kep_init, kep_units. kprojx. rewrite Hu1, Hu2. cbn [rbind].
  unfold kep_duration, kep_omega, kep_incl, kep_times. kprojx.
  assert (G : forall e, (ka_ecc x = e) -> (e = None -> ka_duration x = None) ->
     exists d1 d2,
     match e, ka_duration x with
     | None, Some dur => @Err (option (qty R) * option (qty R) * option (qty R) * option R) ValueError
     | _, _ => Ok (ka_a x, ka_r_star x, ka_duration x, None)
     end = Ok (ka_a x, ka_r_star x, d1, None) /\
     match e, dur' with
     | None, Some dur => @Err (option (qty R) * option (qty R) * option (qty R) * option R) ValueError
     | _, _ => Ok (a', rs', dur', None)
     end = Ok (a', rs', d2, None) /\ d1 = ka_duration x /\ d2 = dur').
  { intros e He Hn. exists (ka_duration x), dur'.
    destruct e. auto. rewrite Hn in * by auto. destruct dur'; [contradiction|]. auto. }
  destruct (ka_ecc x) as [e|] eqn:Ee.
  - cbn [rbind]. rewrite CI.
    destruct (consistent_inputs k a' p' rho' rs' ms' mp') as [[[[[[A P] RHO] RS] MS] MP]|]; [|reflexivity]. cbn [rbind].
    rewrite <- Nd. destruct (ka_omega x), (ka_sin_omega x), (ka_cos_omega x); cbn [is_none negb andb rbind]; auto;
    destruct (ka_duration x), dur'; try contradiction; auto; rewrite ED; auto.
  - destruct Hd as [Hd|Hd]; [|congruence]. rewrite Hd in *. destruct dur'; [contradiction|]. cbn [rbind]. rewrite CI. reflexivity.
Qed.

(** deprecated unit keywords *)
Lemma unit_kw_init (x : kargs R) (m rho : R) um ur :
  kep_init k (set_unit_kw x (Some (plain m)) (Some (plain rho)) (Some um) (Some ur))
  = kep_init k (set_unit_kw x (Some (tagged m um)) (Some (tagged rho ur)) None None) /\
  kep_init k (set_unit_kw x (Some (plain m)) (ka_rho_star x) (Some um) None)
  = kep_init k (set_unit_kw x (Some (tagged m um)) (ka_rho_star x) None None) /\
  kep_init k (set_unit_kw x (ka_m_planet x) (Some (plain rho)) None (Some ur))
  = kep_init k (set_unit_kw x (ka_m_planet x) (Some (tagged rho ur)) None None).
Proof. repeat split; reflexivity. Qed.
Lemma unit_kw_twice (x : kargs R) (m : R) u u' rho ur :
  kep_init k (set_unit_kw x (Some (tagged m u)) rho (Some u') ur) = Err TypeErr.
Proof. reflexivity. Qed.

(** ** C05 *)
Lemma both_times x t tp o : kep_init k (set_times x (Some t) (Some tp)) = Ok o -> False.
Proof.
  unfold kep_init. intros H. inv_bind H. destruct v. inv_bind H. destruct v as [[[? ?] ?] ?].
  inv_bind H. destruct v as [[[[[? ?] ?] ?] ?] ?]. inv_bind H. inv_bind H. destruct v0 as [[[? ?] ?] ?].
  inv_bind H. discriminate E4.
Qed.
Lemma both_times_error x t tp o : kep_init k (set_times x (Some t) None) = Ok o ->
  kep_init k (set_times x (Some t) (Some tp)) = Err ValueError.
Proof.
  unfold kep_init. intros H. inv_bind H. destruct v.
  unfold kep_units, kep_duration, kep_omega, kep_incl in *. revert H E. kprojx. intros H E. rewrite E. cbn [rbind].
  inv_bind H. cbn [rbind]. destruct v as [[[? ?] ?] ?]. inv_bind H. cbn [rbind].
  destruct v as [[[[[? ?] ?] ?] ?] ?]. inv_bind H. cbn [rbind]. inv_bind H. cbn [rbind].
  destruct v0 as [[[? ?] ?] ?]. reflexivity.
Qed.
Lemma neither_time x o : kep_init k (set_times x None None) = Ok o -> o_t0 o = 0.
Proof.
  unfold kep_init. intros H. inv_bind H. destruct v. inv_bind H. destruct v as [[[? ?] ?] ?].
  inv_bind H. destruct v as [[[[[? ?] ?] ?] ?] ?]. inv_bind H. inv_bind H. destruct v0 as [[[? ?] ?] ?].
  inv_bind H. destruct v0. inversion H; subst. cbn. inversion E4. reflexivity.
Qed.

Lemma times_swap x t o : kep_init k (set_times x t None) = Ok o ->
  kep_init k (set_times x None (Some (o_tper o))) = Ok o /\
  (forall t0, t = Some t0 -> o_t0 o = t0).
Proof.
  unfold kep_init. intros H. inv_bind H. destruct v.
  unfold kep_units, kep_duration, kep_omega, kep_incl, kep_times in *. revert H E. kprojx. intros H E. rewrite E. cbn [rbind].
  inv_bind H. cbn [rbind]. destruct v as [[[? ?] ?] ?]. inv_bind H. cbn [rbind].
  destruct v as [[[[[? ?] ?] ?] ?] ?]. inv_bind H. cbn [rbind]. inv_bind H. cbn [rbind].
  destruct v0 as [[[? ?] ?] ?].
  clear E E0 E1 E2 E3.
  destruct t as [t|]; cbn [rbind] in *; apply Ok_inj in H; subst o; cbn [o_tper o_t0]; split; try discriminate;
    try (intros t0 Ht; congruence).
  - rewrite num_sub_add. reflexivity.
  - rewrite num_sub_add. reflexivity.
Qed.
Lemma times_swap' x tp o : kep_init k (set_times x None (Some tp)) = Ok o ->
  kep_init k (set_times x (Some (o_t0 o)) None) = Ok o /\ o_tper o = tp.
Proof.
  unfold kep_init. intros H. inv_bind H. destruct v.
  unfold kep_units, kep_duration, kep_omega, kep_incl, kep_times in *. revert H E. kprojx. intros H E. rewrite E. cbn [rbind].
  inv_bind H. cbn [rbind]. destruct v as [[[? ?] ?] ?]. inv_bind H. cbn [rbind].
  destruct v as [[[[[? ?] ?] ?] ?] ?]. inv_bind H. cbn [rbind]. inv_bind H. cbn [rbind].
  destruct v0 as [[[? ?] ?] ?]. cbn [rbind] in *.
  clear E E0 E1 E2 E3.
  apply Ok_inj in H; subst o; cbn [o_tper o_t0]. split; [|reflexivity].
  rewrite num_add_sub. reflexivity.
Qed.

(** ** C06 *)
Lemma at_t0 x o : kep_init k x = Ok o -> physical o ->
  let p := get_relative_position k o (kep_warp o) (o_t0 o) None false in
  let r := o_a o * (1 - ecc_of o * ecc_of o) / (1 + ecc_of o * sinw_of o) in
  (sinw_of o <> -1 ->
    p = (r * sinO o * o_cos_incl o, - r * cosO o * o_cos_incl o, r * o_sin_incl o)) /\
  (sinw_of o = -1 -> vz p = - (o_a o * (1 - ecc_of o)) * o_sin_incl o).
Proof.
  intros H Hp p r. assert (F := kep_init_facts k kok x o H Hp). assert (Hn := n_pos k kok x o H Hp).
  assert (He := eo_bound o Hp). assert (Hea := eo_abs o Hp). assert (Hw := w_unit o Hp).
  assert (EM : Mof o (o_t0 o) = o_M0 o). { unfold Mof. rewrite (of_t0 _ _ _ F). field. lra. }
  split.
  - intros Hs.
    assert (Hcs : kepler_sinf (o_M0 o) (eo o) = cosw_of o /\ kepler_cosf (o_M0 o) (eo o) = sinw_of o).
    { destruct (o_ecc o) as [d|] eqn:E.
      - rewrite (of_M0_ecc _ _ _ F d E). unfold kep_M0. simR.
        assert (eo o = e_ecc d) as He' by (unfold eo, ecc_of; rewrite E; auto).
        assert (cosw_of o = e_cosw d) as Hc by (unfold cosw_of; rewrite E; auto).
        assert (sinw_of o = e_sinw d) as Hs' by (unfold sinw_of; rewrite E; auto).
        rewrite He', Hc, Hs' in *. apply conj_anomaly; auto.
      - assert (eo o = 0) as -> by (unfold eo, ecc_of; rewrite E; auto).
        rewrite (of_M0_circ _ _ _ F E), kepler_sinf_0, kepler_cosf_0, sin_PI2, cos_PI2.
        unfold cosw_of, sinw_of. rewrite E. auto. }
    destruct Hcs as [H1 H2].
    unfold p. rewrite (rel_pos k kok x o H Hp). cbn [plxf].
    assert (Hr : r = o_a o * Dof o (o_t0 o)).
    { unfold r, Dof, Eof. rewrite EM. fold (eo o). rewrite <- (kepler_radius (o_M0 o) (eo o) Hea), H2.
      unfold Rdiv. ring. }
    assert (HD := Dof_pos o Hp (o_t0 o)).
    assert (Hpx : px o (o_t0 o) = Dof o (o_t0 o) * sinw_of o).
    { rewrite <- H2. rewrite <- EM, (cosf_form o). unfold px. field. lra. }
    assert (Hpy : py o (o_t0 o) = Dof o (o_t0 o) * cosw_of o).
    { rewrite <- H1. rewrite <- EM, (sinf_form o). unfold py. field. lra. }
    unfold lin. rewrite Hpx, Hpy, Hr. unfold Pv, Qv. vcrush.
    set (D := Dof o (o_t0 o)) in *. set (c := cosw_of o) in *. set (s := sinw_of o) in *.
    apply vec_eq.
    + transitivity (o_a o * D * sinO o * o_cos_incl o * (c * c + s * s)); [ring|]. rewrite Hw. ring.
    + transitivity (- (o_a o * D) * cosO o * o_cos_incl o * (c * c + s * s)); [ring|]. rewrite Hw. ring.
    + transitivity (o_a o * D * o_sin_incl o * (c * c + s * s)); [ring|]. rewrite Hw. ring.
  - intros Hs.
    assert (Hc : cosw_of o = 0). { rewrite Hs in Hw. nra. }
    assert (HM0 : o_M0 o = 0).
    { destruct (o_ecc o) as [d|] eqn:E.
      - rewrite (of_M0_ecc _ _ _ F d E). unfold kep_M0. simR.
        assert (cosw_of o = e_cosw d) as Hc' by (unfold cosw_of; rewrite E; auto).
        assert (sinw_of o = e_sinw d) as Hs' by (unfold sinw_of; rewrite E; auto).
        rewrite <- Hc', <- Hs', Hc, Hs. replace (1 + -1) with 0 by ring. rewrite !Rmult_0_r, Ratan2_00, Rmult_0_r, sin_0. ring.
      - exfalso. unfold sinw_of in Hs. rewrite E in Hs. lra. }
    unfold p. rewrite (rel_pos k kok x o H Hp). cbn [plxf]. unfold lin, px, py.
    assert (EE : Eof o (o_t0 o) = 0). { unfold Eof. rewrite EM, HM0. apply ecc_anom_zero; auto. }
    rewrite EE, cos_0, sin_0. unfold Pv, Qv. vcrush. rewrite Hs, Hc. fold (eo o). ring.
Qed.

Lemma t0_distance x o : kep_init k x = Ok o -> physical o -> sinw_of o <> -1 ->
  let p := get_relative_position k o (kep_warp o) (o_t0 o) None false in
  sqrt (vx p * vx p + vy p * vy p) = Rabs (o_b o) * o_r_star o.
Proof.
  intros H Hp Hs p. destruct (at_t0 x o H Hp) as [E _]. unfold p. rewrite (E Hs). vcrush.
  assert (F := kep_init_facts k kok x o H Hp). assert (HO := O_unit k kok x o H Hp).
  assert (He := eo_bound o Hp). assert (Hea := eo_abs o Hp). assert (Ha := ph_a _ Hp). assert (Hr := ph_r_star _ Hp).
  assert (H1 : 0 < 1 + ecc_of o * sinw_of o).
  { assert (-1 <= sinw_of o <= 1) by (generalize (w_unit o Hp); nra).
    generalize (eprod_bound (eo o) (sinw_of o) Hea H0). unfold eo. lra. }
  set (r := o_a o * (1 - ecc_of o * ecc_of o) / (1 + ecc_of o * sinw_of o)).
  replace (r * sinO o * o_cos_incl o * (r * sinO o * o_cos_incl o) + - r * cosO o * o_cos_incl o * (- r * cosO o * o_cos_incl o))
    with (r * o_cos_incl o * (r * o_cos_incl o) * (cosO o * cosO o + sinO o * sinO o)) by ring.
  rewrite HO, Rmult_1_r. fold (Rsqr (r * o_cos_incl o)). rewrite sqrt_Rsqr_abs.
  replace (r * o_cos_incl o) with (o_b o * o_r_star o).
  - rewrite Rabs_mult, (Rabs_pos_eq (o_r_star o)); auto. lra.
  - rewrite (of_cosi_b _ _ _ F), (of_dcosidb _ _ _ F). unfold r. unfold eo in *. field. repeat split; nra.
Qed.

(** ** C07 *)
Lemma b_incl_relation x o : kep_init k x = Ok o -> physical o ->
  o_cos_incl o = cos (o_incl o) /\ o_sin_incl o = sin (o_incl o) /\
  o_cos_incl o = o_b o * (o_r_star o / o_a o) * ((1 + ecc_of o * sinw_of o) / (1 - ecc_of o * ecc_of o)).
Proof.
  intros H Hp. assert (F := kep_init_facts k kok x o H Hp).
  split; [apply (of_cosi _ _ _ F)|]. split; [apply (of_sini _ _ _ F)|].
  rewrite (of_cosi_b _ _ _ F) at 1. rewrite (of_dcosidb _ _ _ F). unfold Rdiv. ring.
Qed.

Lemma dcosidb_pos x o : kep_init k x = Ok o -> physical o -> 0 < o_dcosidb o.
Proof.
  intros H Hp. assert (F := kep_init_facts k kok x o H Hp). rewrite (of_dcosidb _ _ _ F).
  assert (He := eo_bound o Hp). assert (Hea := eo_abs o Hp).
  assert (-1 <= sinw_of o <= 1) by (generalize (w_unit o Hp); nra).
  assert (B := eprod_bound (eo o) (sinw_of o) Hea H0). unfold eo in *.
  apply Rdiv_lt_0_compat; [|apply (ph_a _ Hp)]. apply Rmult_lt_0_compat; [|apply (ph_r_star _ Hp)].
  apply Rdiv_lt_0_compat; nra.
Qed.

Lemma b_to_incl x b o : kep_init k (set_incl x (Some b) None) = Ok o -> physical o ->
  (ka_duration x = None \/ ka_ecc x <> None) ->
  kep_init k (set_incl x None (Some (o_incl o))) = Ok o /\ o_b o = b.
Proof.
  intros H Hp Hd. assert (Hdp := dcosidb_pos _ o H Hp). assert (Hci := ph_cosi _ Hp).
  revert H. unfold kep_init. intros H. inv_bind H. destruct v.
  unfold kep_units, kep_duration, kep_omega, kep_incl, kep_times in *. revert H E. kprojx. intros H E. rewrite E. cbn [rbind].
  assert (Dn : match ka_ecc x, ka_duration x with
    | None, Some dur => false | _, _ => true end = true).
  { destruct Hd as [-> | Hd]; destruct (ka_ecc x); auto; try congruence. }
  destruct (ka_ecc x), (ka_duration x); try discriminate Dn; cbn [rbind is_none negb orb] in *;
  destruct (consistent_inputs _ _ _ _ _ _ _) as [[[[[[A P] RHO] RS] MS] MP]|]; try discriminate H; cbn [rbind] in *.
  all: destruct (ka_t0 x), (ka_tper x); cbn [rbind] in *; try discriminate H; try (inv_bind H; cbn [rbind] in *); try discriminate H; apply Ok_inj in H; subst o; cbn [o_incl o_b o_dcosidb o_cos_incl] in *; split; auto;
    simR; rewrite cos_acos by auto;
    rewrite mul_div_id by exact Hdp; reflexivity.
Qed.

Lemma incl_to_b x i o : kep_init k (set_incl x None (Some i)) = Ok o -> physical o -> 0 <= i <= PI ->
  (ka_duration x = None \/ ka_ecc x <> None) ->
  kep_init k (set_incl x (Some (o_b o)) None) = Ok o /\ o_incl o = i.
Proof.
  intros H Hp Hi Hd. assert (Hdp := dcosidb_pos _ o H Hp). assert (Hci := ph_cosi _ Hp).
  revert H. unfold kep_init. intros H. inv_bind H. destruct v.
  unfold kep_units, kep_duration, kep_omega, kep_incl, kep_times in *. revert H E. kprojx. intros H E. rewrite E. cbn [rbind].
  assert (Dn : match ka_ecc x, ka_duration x with
    | None, Some dur => false | _, _ => true end = true).
  { destruct Hd as [-> | Hd]; destruct (ka_ecc x); auto; try congruence. }
  destruct (ka_ecc x), (ka_duration x); try discriminate Dn; cbn [rbind is_none negb orb] in *;
  destruct (consistent_inputs _ _ _ _ _ _ _) as [[[[[[A P] RHO] RS] MS] MP]|]; try discriminate H; cbn [rbind] in *.
  all: destruct (ka_t0 x), (ka_tper x); cbn [rbind] in *; try discriminate H; try (inv_bind H; cbn [rbind] in *); try discriminate H; apply Ok_inj in H; subst o; cbn [o_incl o_b o_dcosidb o_cos_incl] in *; split; auto;
    simR;
    rewrite mul_div_id' by exact Hdp; rewrite acos_cos by auto; reflexivity.
Qed.

Lemma b_and_incl x b i o : kep_init k (set_incl x (Some b) (Some i)) = Ok o -> False.
Proof.
  unfold kep_init. intros H. inv_bind H. destruct v. inv_bind H. destruct v as [[[? ?] ?] ?].
  inv_bind H. destruct v as [[[[[? ?] ?] ?] ?] ?]. inv_bind H. inv_bind H. discriminate E3.
Qed.
Lemma incl_and_duration x o : ka_ecc x <> None -> ka_duration x <> None ->
  given (ka_b x) || given (ka_incl x) = true -> kep_init k x = Ok o -> False.
Proof.
  intros He Hd Hb. unfold kep_init. intros H. inv_bind H. destruct v. inv_bind H. destruct v as [[[? ?] ?] ?].
  inv_bind H. destruct v as [[[[[? ?] ?] ?] ?] ?]. inv_bind H. inv_bind H.
  unfold kep_duration in E0. destruct (ka_ecc x); [|congruence]. inversion E0; subst.
  unfold kep_incl in E3. destruct (ka_duration x); [|congruence].
  destruct (ka_b x), (ka_incl x); cbn in *; discriminate.
Qed.
Lemma no_incl x o : ka_b x = None -> ka_incl x = None -> ka_duration x = None -> kep_init k x = Ok o ->
  o_b o = 0 /\ o_cos_incl o = 0 /\ o_incl o = PI / 2 /\ o_sin_incl o = 1.
Proof.
  intros Hb Hi Hd. unfold kep_init. intros H. inv_bind H. destruct v. inv_bind H. destruct v as [[[aa' rs'] du'] da'].
  inv_bind H. destruct v as [[[[[? ?] ?] ?] ?] ?]. inv_bind H. inv_bind H.
  unfold kep_duration in E0. rewrite Hd in E0.
  assert (du' = None) by (destruct (ka_ecc x); inversion E0; auto). subst.
  unfold kep_incl in E3. rewrite Hb, Hi in E3. destruct v0 as [[[? ?] ?] ?]. inv_bind H. destruct v0.
  apply Ok_inj in H. subst o. cbn. inversion E3; subst. simR. repeat split; auto. lra.
  replace (0.5 * PI + 0) with (PI / 2) by lra. apply sin_PI2.
Qed.
End S.
