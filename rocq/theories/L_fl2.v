(** * Constructor and evaluation on finite machine numbers *)
From Coq Require Import Reals List Bool Lra Psatz.
From Verif Require Import Num CoreOps Inst M_units M_kepler M_fin Spec_orbit Spec_params L_real L_kepop L_orbit L_motion L_params3 L_fl.
Open Scope R_scope.

Section S.
Variable k : consts.
Hypothesis kok : consts_ok k.

Lemma kep_omega_fin (x : kargs R) : kep_omega (fin_args x) = rmap (option_map (map_eccd Fin)) (kep_omega x).
Proof.
  unfold kep_omega, fin_args. cbn [map_args ka_ecc ka_omega ka_sin_omega ka_cos_omega].
  destruct (ka_ecc x), (ka_omega x), (ka_sin_omega x), (ka_cos_omega x); reflexivity.
Qed.

Lemma kep_times_fin (x : kargs R) P M n : n <> 0 ->
  kep_times (fin_args x) (Fin P) (Fin M) (Fin n) = rmap (fun p => (Fin (fst p), Fin (snd p))) (kep_times x P M n).
Proof.
  intro Hn. unfold kep_times, fin_args. cbn [map_args ka_t0 ka_tper].
  destruct (ka_t0 x), (ka_tper x); cbn [option_map]; fn; try rewrite fdiv_fin by assumption; reflexivity.
Qed.

Lemma kep_M0_fin (d : eccd R) : 0 <= e_ecc d < 1 -> kep_M0 (map_eccd Fin d) = Fin (kep_M0 d).
Proof.
  intro H. unfold kep_M0. cbn [map_eccd e_ecc e_cosw e_sinw]. fn.
  rewrite !fsqrt_fin by lra. reflexivity.
Qed.

Lemma kep_init_fin (x : kargs R) o :
  kep_init k x = Ok o -> physical o -> no_ecc_duration x -> kep_init k (fin_args x) = Ok (fin_orbit o).
Proof.
  intros H ph Hd. assert (Hpi := PI_pos).
  unfold kep_init in H |- *. rewrite kep_units_fin.
  destruct (kep_units x) as [[mpl rho]|]; [|cbn [rbind rmap] in H; discriminate H]. cbn [rbind rmap fst snd] in *.
  destruct (kep_duration x) as [[[[a rs] dur] dao]|] eqn:Ed; [|cbn [rbind rmap] in H; discriminate H]. cbn [rbind] in H.
  destruct (consistent_inputs k a (ka_period x) rho rs (ka_m_star x) mpl) as [[[[[[A P] RHO] RS] MS] MP]|] eqn:E1; [|cbn [rbind rmap] in H; discriminate H].
  cbn [rbind] in H.
  destruct (kep_omega x) as [ed|] eqn:Eo; [|cbn [rbind rmap] in H; discriminate H]. cbn [rbind] in H.
  match type of H with context [kep_incl k x dur ed ?f ?g A P ?h RS] => set (dc := g) in *; set (apl := h) in *; set (fac := f) in * end.
  destruct (kep_incl k x dur ed fac dc A P apl RS) as [[[[b ci] inc] durattr]|] eqn:Ei; [|cbn [rbind rmap] in H; discriminate H]. cbn [rbind] in H.
  match type of H with context [kep_times x P ?m ?n] => set (M0 := m) in *; set (n0 := n) in * end.
  destruct (kep_times x P M0 n0) as [[t0 tp]|] eqn:Et; [|cbn [rbind rmap] in H; discriminate H]. cbn [rbind] in H.
  apply Ok_inj in H. subst o.
  destruct ph as [pa pp pr pm pmp pmt pci pe po]. cbn in pa, pp, pr, pm, pmp, pmt, pci, pe, po.
  (* duration *)
  assert (Dur : kep_duration (fin_args x) = Ok (option_map (map_qty Fin) a, option_map (map_qty Fin) rs,
                   option_map (map_qty Fin) dur, option_map Fin dao)).
  { revert Ed. unfold kep_duration, fin_args. cbn [map_args ka_ecc ka_duration ka_r_star ka_b ka_period ka_ror ka_a].
    destruct (ka_ecc x) as [e|]; cbn [option_map].
    { intro E; apply Ok_inj in E; inversion E; subst. destruct (ka_duration x); reflexivity. }
    destruct (ka_duration x) as [d|]; cbn [option_map].
    2:{ intro E; apply Ok_inj in E; inversion E; subst. reflexivity. }
    destruct (ka_b x) as [b0|]; cbn [option_map]; [|discriminate].
    destruct (ka_period x) as [p|] eqn:Ep; cbn [option_map]; [|discriminate].
    intro E.
    set (r0 := match ka_r_star x with None => plain (nlit 1) | Some r => r end) in E.
    replace (match option_map (map_qty Fin) (ka_r_star x) with None => plain (nlit 1) | Some r => r end) with (map_qty Fin r0)
      by (unfold r0; destruct (ka_r_star x); reflexivity).
    revert E. unfold get_aor. cbn [map_qty qv].
    set (ror := match ka_ror x with Some r => r | None => nlit 0 end).
    replace (match option_map Fin (ka_ror x) with Some r => r | None => nlit 0 end) with (Fin ror)
      by (unfold ror; destruct (ka_ror x); reflexivity).
    fn. intro E. apply Ok_inj in E. inversion E; subst; clear E.
    (* period in days is positive, hence the raw value is not zero; a = qv r_star * num / sinp positive *)
    assert (HA : A = qv r0 * (sqrt ((1 + ror) * (1 + ror) - b0 * b0 * (cos (PI * qv d / qv p) * cos (PI * qv d / qv p)))
                     / sin (PI * qv d / qv p)) /\ exists c, P = qv p * c).
    { revert E1. unfold consistent_inputs. rewrite ?Ep. cbn [is_none negb andb opt_to_unit to_unit plain qu qv rmap rbind].
      destruct (opt_to_unit mpl (u_M_sun k)) as [vm|]; [|discriminate]. cbn [rbind].
      assert (forall p', to_unit p (u_day k) = Ok p' -> exists c, p' = qv p * c).
      { intros p'. unfold to_unit. destruct (qu p); [destruct (uto u (u_day k)); [|discriminate]|]; cbn; intro E; inversion E; subst.
        - eexists; reflexivity.
        - exists 1. ring. }
      destruct (to_unit p (u_day k)) as [p'|]; [|discriminate]. cbn [rbind rmap].
      destruct (negb (is_none rho) || negb (is_none (ka_m_star x))); [discriminate|].
      destruct (to_unit r0 (u_R_sun k)) as [r'|]; [|discriminate]. cbn [rbind].
      intro E. apply Ok_inj in E. inversion E; subst. split; [reflexivity|]. apply H; reflexivity. }
    destruct HA as [HA [c Hc]].
    set (phi := PI * qv d / qv p) in *.
    set (num2 := (1 + ror) * (1 + ror) - b0 * b0 * (cos phi * cos phi)) in *.
    assert (Hp0 : qv p <> 0) by (intro Z; rewrite Z in Hc; lra).
    assert (Hs : sin phi <> 0).
    { intro Z. rewrite Z in HA. unfold Rdiv in HA. rewrite Rinv_0 in HA. rewrite !Rmult_0_r in HA. lra. }
    assert (Hn : 0 < num2).
    { destruct (Rlt_dec 0 num2); [assumption|]. rewrite sqrt_neg_0 in HA by lra. unfold Rdiv in HA.
      rewrite Rmult_0_l, Rmult_0_r in HA. lra. }
    assert (Hsq : 0 < sqrt num2) by (apply sqrt_lt_R0; assumption).
    rewrite (fdiv_fin (PI * qv d) (qv p)) by assumption. fold phi. fn.
    rewrite fsqrt_fin by (unfold num2 in Hn; lra). fold num2.
    rewrite (fdiv_fin (sqrt num2)) by assumption. fn. rewrite fdiv_fin; [reflexivity|].
    apply Rmult_integral_contrapositive_currified; [apply Rmult_integral_contrapositive_currified; [apply Rgt_not_eq; exact Hsq|exact Hp0]|].
    apply Rmult_integral_contrapositive_currified; assumption. }
  rewrite Dur. cbn [rbind].
  assert (CI := ci_fin k kok _ _ _ _ _ _ _ _ _ _ _ _ E1 pa pp pr pmt). cbv zeta in CI.
  change (ka_period (fin_args x)) with (option_map (map_qty Fin) (ka_period x)).
  change (ka_m_star (fin_args x)) with (option_map (map_qty Fin) (ka_m_star x)).
  rewrite CI. cbn [rbind]. rewrite kep_omega_fin, Eo. cbn [rbind rmap].
  assert (He : forall d, ed = Some d -> 0 < 1 - e_ecc d * e_ecc d).
  { intros d E. specialize (pe d E). nra. }
  assert (Hmt : MS + MP <> 0) by lra.
  assert (Hn0 : 0 < n0) by (unfold n0; fn; apply Rdiv_lt_0_compat; lra).
  (* attributes *)
  assert (En : (nlit 2 * nlit PI / Fin P)%num = Fin n0).
  { fn. rewrite fdiv_fin by lra. reflexivity. }
  rewrite !En. change (nlit 2 * nlit PI / P)%num with n0.
  assert (Em : (Fin MS + Fin MP)%num = Fin (MS + MP)) by reflexivity. rewrite !Em.
  assert (Efac : match option_map (map_eccd Fin) ed with
     | None => (#1)%num
     | Some d => ((#1 + e_ecc d * e_sinw d) / (#1 - e_ecc d ^ 2))%num end = Fin fac).
  { unfold fac. destruct ed as [d|]; cbn [option_map map_eccd e_ecc e_sinw]; [|reflexivity]. fn.
    rewrite fdiv_fin; [reflexivity|]. specialize (He d eq_refl). lra. }
  rewrite !Efac.
  assert (Eap : (- Fin A * Fin MS / Fin (MS + MP))%num = Fin apl).
  { fn. rewrite fdiv_fin by assumption. reflexivity. }
  assert (Edc : (Fin fac * Fin RS / Fin A)%num = Fin dc).
  { fn. rewrite fdiv_fin by lra. reflexivity. }
  rewrite !Eap, !Edc.
  assert (EM0 : match option_map (map_eccd Fin) ed with
     | None => (nlit 0.5 * nlit PI + nzl (Fin n0))%num | Some d => kep_M0 d end = Fin M0).
  { unfold M0. destruct ed as [d|]; cbn [option_map]; [|reflexivity].
    rewrite kep_M0_fin; [reflexivity|]. apply pe; reflexivity. }
  rewrite !EM0.
  assert (Hfac : 0 < fac).
  { unfold fac. destruct ed as [d|]; fn; [|lra]. specialize (He d eq_refl). specialize (pe d eq_refl). specialize (po d eq_refl).
    apply Rdiv_lt_0_compat; [|lra].
    assert (-1 <= e_sinw d <= 1) by nra.
    assert (Rabs (e_ecc d) < 1) by (rewrite Rabs_pos_eq; lra).
    generalize (eprod_bound _ _ H0 H). lra. }
  assert (Hdc : 0 < dc) by (unfold dc; fn; apply Rdiv_lt_0_compat; nra).
  assert (Incl : kep_incl k (fin_args x) (option_map (map_qty Fin) dur) (option_map (map_eccd Fin) ed)
      (Fin fac) (Fin dc) (Fin A) (Fin P) (Fin apl) (Fin RS) = Ok (Fin b, Fin ci, Fin inc, option_map Fin durattr)).
  { revert Ei. unfold kep_incl, fin_args. cbn [map_args ka_b ka_incl]. rewrite !is_none_map.
    destruct (ka_b x) as [b0|]; cbn [option_map].
    { destruct (negb _ || negb _); [discriminate|]. fn. intro E. apply Ok_inj in E. inversion E; subst.
      rewrite facos_fin by assumption. reflexivity. }
    destruct (ka_incl x) as [i0|]; cbn [option_map is_none negb].
    { destruct (negb _); [discriminate|]. fn. intro E. apply Ok_inj in E. inversion E; subst.
      rewrite fdiv_fin by lra. reflexivity. }
    destruct dur as [q|]; cbn [option_map is_none negb].
    { exfalso. revert Ed Eo. unfold kep_duration, kep_omega. destruct Hd as [Z|Z].
      - rewrite Z. intros Ed Eo. apply Ok_inj in Eo. subst ed.
        destruct (ka_duration x); [|discriminate]. destruct (ka_b x); [|discriminate]. destruct (ka_period x); [|discriminate].
        destruct (get_aor _ _ _ _). discriminate.
      - rewrite Z. destruct (ka_ecc x); discriminate. }
    intro E. apply Ok_inj in E. inversion E; subst. reflexivity. }
  rewrite Incl. cbn [rbind].
  rewrite kep_times_fin by lra. rewrite Et. cbn [rmap rbind fst snd].
  apply (f_equal (@Ok (orbit fl))). unfold fin_orbit, map_orbit. cbn [o_a o_period o_rho_star o_r_star o_m_star o_m_planet o_m_total o_n o_a_star
    o_a_planet o_K0 o_Omega o_ecc o_M0 o_dcosidb o_b o_cos_incl o_incl o_sin_incl o_t0 o_tper o_tref o_jac o_duration].
  assert (EK : match option_map (map_eccd Fin) ed with
     | None => (Fin n0 * Fin A / Fin (MS + MP))%num
     | Some d => (Fin n0 * Fin A / Fin (MS + MP) / nsqrt (#1 - e_ecc d ^ 2))%num end
     = Fin (match ed with None => (n0 * A / (MS + MP))%num | Some d => (n0 * A / (MS + MP) / nsqrt (#1 - e_ecc d ^ 2))%num end)).
  { destruct ed as [d|]; cbn [option_map map_eccd e_ecc]; fn; rewrite !(fdiv_fin (n0 * A)) by assumption; [|reflexivity]. specialize (He d eq_refl).
    assert (Hq : 0 < 1 - e_ecc d * e_ecc d) by lra.
    rewrite fsqrt_fin by (unfold Rminus in Hq; lra). rewrite fdiv_fin; [reflexivity|]. apply Rgt_not_eq, sqrt_lt_R0. exact Hq. }
  rewrite EK.
  assert (EO : match ka_Omega (fin_args x) with None => None | Some w => Some {| O_Omega := w; O_cos := ncos w; O_sin := nsin w |} end
    = option_map (map_omgd Fin) (match ka_Omega x with None => None | Some w => Some {| O_Omega := w; O_cos := ncos w; O_sin := nsin w |} end)).
  { unfold fin_args. cbn [map_args ka_Omega]. destruct (ka_Omega x); reflexivity. }
  rewrite EO.
  assert (Eas : (Fin A * Fin MP / Fin (MS + MP))%num = Fin (A * MP / (MS + MP))%num).
  { fn. rewrite fdiv_fin by assumption. reflexivity. }
  rewrite Eas.
  f_equal.
  destruct dao as [g|]; [|reflexivity]. cbn [option_map]. unfold map_jacd. cbn [j_a j_a_star j_a_planet j_rho].
  assert (HG := ok_G _ kok). assert (0 < P * P) by nra.
  f_equal. fn. rewrite (fdiv_fin A RS) by lra. fn. rewrite !fdiv_fin by first [lra|nra]. reflexivity.
Qed.
End S.
