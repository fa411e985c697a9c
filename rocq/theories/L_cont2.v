(** * Convergent arguments of the constructor give convergent attributes *)
From Coq Require Import Reals Lra Lia Bool.
From Coquelicot Require Import Coquelicot.
From Verif Require Import Num CoreOps Inst M_units M_kepler Spec_orbit Spec_params Spec_cont L_real L_kepop L_orbit L_flux L_params3 L_scale L_cont.
Open Scope R_scope.

Section S.
Variable k : consts.
Hypothesis kok : consts_ok k.
Variable xs : nat -> kargs R.
Variable x : kargs R.
Hypothesis AT : args_tend xs x.

Lemma with_unit_tends (qs : nat -> qty R) q u w : qty_tends qs q -> with_unit q u = Ok w -> exists ws, (forall n, with_unit (qs n) u = Ok (ws n)) /\ qty_tends ws w.
Proof.
  intros [U C] H. unfold with_unit in *. destruct (qu q) eqn:Q; [discriminate|]. apply Ok_inj in H. subst w.
  exists (fun n => M_units.Q (qv (qs n)) (Some u)). split. { intro n. rewrite U. reflexivity. } split; [reflexivity|exact C].
Qed.
Lemma tag_tends (qs : nat -> option (qty R)) q (us : nat -> option unit_t) u v : given_tends qty_tends qs q -> (forall n, us n = u) ->
  match u with None => Ok q | Some u => match q with None => Err TypeErr | Some q => rmap Some (with_unit q u) end end = Ok v ->
  exists vs, (forall n, match us n with None => Ok (qs n) | Some u => match qs n with None => Err TypeErr | Some q => rmap Some (with_unit q u) end end = Ok (vs n)) /\ given_tends qty_tends vs v.
Proof.
  intros G U H. destruct u as [u|].
  - destruct q as [q|]; [|discriminate]. destruct (with_unit q u) as [w|] eqn:W; cbn in H; [|discriminate]. apply Ok_inj in H. subst v.
    destruct G as (ws & E & C). destruct (with_unit_tends _ _ _ _ C W) as (vs & V & L). exists (fun n => Some (vs n)). split.
    + intro n. rewrite U, E, V. reflexivity.
    + exists vs. split; [reflexivity|exact L].
  - apply Ok_inj in H. subst v. exists qs. split; [intro n; rewrite U; reflexivity|exact G].
Qed.

Lemma units_tend mp rho : kep_units x = Ok (mp, rho) ->
  exists mps rhos, (forall n, kep_units (xs n) = Ok (mps n, rhos n)) /\ given_tends qty_tends mps mp /\ given_tends qty_tends rhos rho.
Proof.
  intro H. unfold kep_units in *. inv_bind H. inv_bind H. apply Ok_inj in H. injection H as -> ->.
  destruct (tag_tends _ _ _ _ _ (at_m_planet _ _ AT) (at_m_planet_units _ _ AT) E) as (mps & Em & Cm).
  destruct (tag_tends _ _ _ _ _ (at_rho_star _ _ AT) (at_rho_star_units _ _ AT) E0) as (rhos & Er & Cr).
  exists mps, rhos. split; [|split; assumption]. intro n. cbv beta in Em, Er. rewrite Em. cbn [rbind]. rewrite Er. reflexivity.
Qed.

(** a plain semi-major axis is used as it is; a period is only scaled *)
Lemma inputs_a v p rho rs ms mp A P RHO RS MS MP : consistent_inputs k (Some (plain v)) p rho rs ms mp = Ok (A, P, RHO, RS, MS, MP) -> A = v.
Proof.
  rewrite inputs_split. cbn [is_none andb]. intro H. inv_bind H. change (opt_to_unit (Some (plain v)) (u_R_sun k)) with (Ok (Some v)) in H. cbn [rbind] in H. inv_bind H. inv_bind H.
  destruct v2 as [[h r] m]. unfold orbit_of in H. destruct v1; apply Ok_inj in H; congruence.
Qed.
Lemma inputs_p a p rho rs ms mp A P RHO RS MS MP : consistent_inputs k a (Some p) rho rs ms mp = Ok (A, P, RHO, RS, MS, MP) -> 0 < P -> qv p <> 0.
Proof.
  rewrite inputs_split. destruct (is_none a && _); [discriminate|]. intro H. inv_bind H. inv_bind H. inv_bind H. inv_bind H. intro HP.
  assert (exists c, v1 = Some (qv p * c)).
  { cbn in E1. unfold to_unit in E1. destruct (qu p) as [u|].
    - destruct (uto u (u_day k)) as [f|]; cbn in E1; [|discriminate]. apply Ok_inj in E1. subst v1. exists f. reflexivity.
    - cbn in E1. apply Ok_inj in E1. subst v1. exists 1. rewrite Rmult_1_r. reflexivity. }
  destruct H0 as [c ->]. destruct v2 as [[h r] m]. unfold orbit_of in H. destruct v0; apply Ok_inj in H; intro Z; rewrite Z, Rmult_0_l in H; injection H; intros; lra.
Qed.

Lemma duration_tends a rs dur g : kep_duration x = Ok (a, rs, dur, g) ->
  (forall p, ka_period x = Some p -> qv p <> 0) -> (forall v, a = Some (plain v) -> ka_ecc x = None -> ka_duration x <> None -> v <> 0) ->
  exists as_ rss durs gs, (forall n, kep_duration (xs n) = Ok (as_ n, rss n, durs n, gs n)) /\ given_tends qty_tends as_ a /\ given_tends qty_tends rss rs /\ given_tends qty_tends durs dur.
Proof.
  intros H HP HA.
  assert (Ge := at_ecc _ _ AT). assert (Gd := at_duration _ _ AT). assert (Gr := at_r_star _ _ AT). assert (Gb := at_b _ _ AT). assert (Gp := at_period _ _ AT). assert (Ga := at_a _ _ AT). assert (Go := at_ror _ _ AT).
  assert (Dec : (ka_ecc x = None /\ exists d, ka_duration x = Some d) \/ ((forall n, kep_duration (xs n) = Ok (ka_a (xs n), ka_r_star (xs n), ka_duration (xs n), None)) /\ kep_duration x = Ok (ka_a x, ka_r_star x, ka_duration x, None))).
  { unfold kep_duration in *. destruct (ka_ecc x).
    - right. destruct Ge as (es & Ee & _). split; [|reflexivity]. intro n. rewrite Ee. reflexivity.
    - destruct (ka_duration x); [left; eauto|]. right. split; [|reflexivity]. intro n. cbn in Ge, Gd. rewrite Ge, Gd. reflexivity. }
  destruct Dec as [[Ne [d Hd]]|[Hn H0]].
  - unfold kep_duration in H. rewrite Ne, Hd in H. rewrite Ne in Ge. rewrite Hd in Gd. destruct (ka_b x) as [b|]; [|discriminate]. destruct (ka_period x) as [p|]; [|discriminate].
    cbn [given_tends] in Ge. destruct Gd as (ds & Ed & [Ud Cd]), Gb as (bs & Eb & Cb), Gp as (ps & Ep & [Up Cp]).
    set (r0 := match ka_r_star x with None => plain (nlit 1) | Some r => r end) in *.
    assert (Cr : exists rq, (forall n, (match ka_r_star (xs n) with None => plain (nlit 1) | Some r => r end) = rq n) /\ qty_tends rq r0).
    { unfold r0. destruct (ka_r_star x) as [r|].
      - destruct Gr as (rq & Er & C). exists rq. split; [intro n; rewrite Er; reflexivity|exact C].
      - exists (fun _ => plain (nlit 1)). split; [intro n; cbn in Gr; rewrite Gr; reflexivity|]. split; [reflexivity|apply cv_const]. }
    destruct Cr as (rq & Er & [Ur Cr]).
    set (o0 := match ka_ror x with Some r => r | None => nlit 0 end).
    assert (Co : exists oq, (forall n, (match ka_ror (xs n) with Some r => r | None => nlit 0 end) = oq n) /\ Un_cv oq o0).
    { unfold o0. destruct (ka_ror x) as [r|].
      - destruct Go as (oq & Eo & C). exists oq. split; [intro n; rewrite Eo; reflexivity|exact C].
      - exists (fun _ => nlit 0). split; [intro n; cbn in Go; rewrite Go; reflexivity|]. apply cv_const. }
    destruct Co as (oq & Eo & Co).
    unfold get_aor in H. fold o0 in H. apply Ok_inj in H. injection H as <- <- <- <-.
    assert (HPp := HP p eq_refl). specialize (HA _ eq_refl Ne). rewrite Hd in HA. specialize (HA ltac:(discriminate)). simR.
    assert (HS : sin (PI * qv d / qv p) <> 0). { intro Z. apply HA. rewrite Z. unfold Rdiv at 1. rewrite Rinv_0. ring. }
    eexists _, _, _, _. split.
    { intro n. unfold kep_duration. rewrite Ge, Ed, Eb, Ep, Er. unfold get_aor. rewrite Eo. reflexivity. }
    simR. split; [|split].
    + eexists. split. { intro n. reflexivity. } apply plain_tends. cv; assumption.
    + eexists. split. { intro n. reflexivity. } split; [exact Ur|exact Cr].
    + intro n. reflexivity.
  - rewrite H0 in H. apply Ok_inj in H. injection H as <- <- <- <-. eexists _, _, _, _. split; [exact Hn|]. split; [|split]; assumption.
Qed.

Definition ecc_tends (eds : nat -> option (eccd R)) (ed : option (eccd R)) : Prop :=
  match ed with
  | None => forall n, eds n = None
  | Some d => exists ds, (forall n, eds n = Some (ds n)) /\ Un_cv (fun n => e_ecc (ds n)) (e_ecc d) /\ Un_cv (fun n => e_cosw (ds n)) (e_cosw d) /\ Un_cv (fun n => e_sinw (ds n)) (e_sinw d)
  end.
Lemma omega_tends ed : kep_omega x = Ok ed -> exists eds, (forall n, kep_omega (xs n) = Ok (eds n)) /\ ecc_tends eds ed.
Proof.
  intro H. assert (Ge := at_ecc _ _ AT). assert (Gw := at_omega _ _ AT). assert (Gs := at_sin_omega _ _ AT). assert (Gc := at_cos_omega _ _ AT).
  assert (Ns := given_none _ _ _ Gs). assert (Nc := given_none _ _ _ Gc).
  unfold kep_omega in *. destruct (ka_ecc x) as [e|].
  - destruct Ge as (es & Ee & Ce). destruct (ka_omega x) as [w|].
    + destruct Gw as (ws & Ew & Cw). destruct (_ && _) eqn:Z; [discriminate|]. apply Ok_inj in H. subst ed. eexists. split.
      { intro n. rewrite Ee, Ew, Ns, Nc, Z. reflexivity. } simR. eexists. split; [intro n; reflexivity|]. cbn [e_ecc e_cosw e_sinw]. split; [|split]; cv.
    + cbn in Gw. destruct (ka_sin_omega x) as [s|]; [|discriminate]. destruct (ka_cos_omega x) as [c|]; [|discriminate]. apply Ok_inj in H. subst ed.
      destruct Gs as (ss & Es & Cs), Gc as (cs & Ec & Cc). eexists. split. { intro n. rewrite Ee, Gw, Es, Ec. reflexivity. }
      eexists. split; [intro n; reflexivity|]. cbn [e_ecc e_cosw e_sinw]. split; [|split]; cv.
  - cbn in Ge. apply Ok_inj in H. subst ed. exists (fun _ => None). split; [|intro; reflexivity]. intro n. rewrite Ge. reflexivity.
Qed.

Lemma M0_tends ds d : 0 <= e_ecc d < 1 -> -1 < e_sinw d -> Un_cv (fun n => e_ecc (ds n)) (e_ecc d) -> Un_cv (fun n => e_cosw (ds n)) (e_cosw d) -> Un_cv (fun n => e_sinw (ds n)) (e_sinw d) ->
  Un_cv (fun n => kep_M0 (ds n)) (kep_M0 d).
Proof.
  intros He Hs C1 C2 C3. unfold kep_M0. simR. cv; apply Rmult_lt_0_compat; try lra; apply sqrt_lt_R0; lra.
Qed.

Definition incl4_tend (vs : nat -> R * R * R * option R) (v : R * R * R * option R) : Prop := vec_tends (fun n => fst (vs n)) (fst v).
Lemma incl_tends durs dur eds ed fs f ds d as_ a ps p aps ap rss rs v : given_tends qty_tends durs dur -> ecc_tends eds ed ->
  Un_cv ds d -> d <> 0 -> Un_cv fs f -> Un_cv ps p -> p <> 0 -> Un_cv aps ap -> Un_cv rss rs -> rs <> 0 ->
  (ed = None \/ dur = None \/ exists q D w, dur = Some q /\ to_unit q (u_day k) = Ok D /\ ed = Some w /\
     let c := sin (PI * D * f / p) in let den := c * c * ((e_ecc w * e_sinw w) * (e_ecc w * e_sinw w)) + 2 * (c * c) * (e_ecc w * e_sinw w) + c * c - (e_ecc w * e_ecc w) * (e_ecc w * e_ecc w) + 2 * (e_ecc w * e_ecc w) - 1 in
     den <> 0) -> kep_incl k x dur ed f d a p ap rs = Ok v ->
  exists vs, (forall n, kep_incl k (xs n) (durs n) (eds n) (fs n) (ds n) (as_ n) (ps n) (aps n) (rss n) = Ok (vs n)) /\ incl4_tend vs v.
Proof.
  intros Gd Ge Cd Hd Cf Cp Hp Cap Crs Hrs NE H. assert (Nd := given_none _ _ _ Gd). assert (Gb := at_b _ _ AT). assert (Gi := at_incl _ _ AT). assert (Ni := given_none _ _ _ Gi).
  unfold kep_incl in *. simR. unfold incl4_tend, vec_tends, vx, vy, vz. destruct (ka_b x) as [b|].
  - destruct Gb as (bs & Eb & Cb). destruct (_ || _) eqn:Z; [discriminate|]. apply Ok_inj in H. subst v. eexists. split. { intro n. rewrite Eb, Ni, Nd, Z. reflexivity. }
    cbn [fst snd]. split; [|split]; cv.
  - cbn in Gb. destruct (ka_incl x) as [i|].
    + destruct Gi as (is_ & Ei & Ci). destruct (negb _) eqn:Z; [discriminate|]. apply Ok_inj in H. subst v. eexists. split. { intro n. rewrite Gb, Ei, Nd, Z. reflexivity. }
      cbn [fst snd]. split; [|split]; cv; assumption.
    + cbn in Gi. destruct dur as [q|].
      * destruct ed as [w|]; [|discriminate]. destruct NE as [NE | [NE | (q' & D & w' & Eq & HD & Ew & den)]]; [discriminate|discriminate|]. injection Eq as <-. injection Ew as <-. rewrite HD in H. cbn [rbind] in H. apply Ok_inj in H. subst v.
        destruct Gd as (qs & Eqs & Cq). destruct (to_unit_tends qs q (u_day k) D Cq HD) as (Ds & ED & CD). destruct Ge as (ws & Ews & C1 & C2 & C3).
        assert (CB : Un_cv (fun n => ecc_duration_b (ws n) (Ds n) (fs n) (ps n) (aps n) (rss n)) (ecc_duration_b w D f p ap rs)).
        { unfold ecc_duration_b. cbn [npw]. simR. cbv zeta in den. cv; try assumption.
          intro Z. apply den. rewrite <- Z. ring. }
        eexists. split. { intro n. rewrite Gb, Gi, Eqs, Ews, ED. cbn [rbind]. reflexivity. } cbn [fst snd]. split; [|split]; cv.
      * cbn in Gd. apply Ok_inj in H. subst v. eexists. split. { intro n. rewrite Gb, Gi, Gd. reflexivity. } cbn [fst snd]. split; [|split]; cv.
Qed.

Lemma times_tend ps p Ms M nns nn v : nn <> 0 -> Un_cv nns nn -> kep_times x p M nn = Ok v ->
  exists vs, (forall n, kep_times (xs n) (ps n) (Ms n) (nns n) = Ok (vs n)) /\
    (Un_cv Ms M -> Un_cv (fun n => fst (vs n)) (fst v) /\ Un_cv (fun n => snd (vs n)) (snd v)) /\ (ka_tper x <> None -> Un_cv (fun n => snd (vs n)) (snd v)).
Proof.
  intros Hn Cn H. assert (G0 := at_tmid _ _ AT). assert (Gp := at_tper _ _ AT). unfold kep_times in *. simR.
  destruct (ka_t0 x) as [t0|], (ka_tper x) as [tp|]; [discriminate| | |]; apply Ok_inj in H; subst v; cbn [given_tends] in G0, Gp.
  - destruct G0 as (ts & Et & Ct). eexists. split. { intro n. rewrite Et, Gp. reflexivity. } cbn [fst snd]. split; [intro CM; split; cv; assumption|]. intro. congruence.
  - destruct Gp as (ts & Et & Ct). eexists. split. { intro n. rewrite Et, G0. reflexivity. } cbn [fst snd]. split; [intro CM; split; cv; assumption|]. intro. exact Ct.
  - eexists. split. { intro n. rewrite G0, Gp. reflexivity. } cbn [fst snd]. split; [intro CM; split; cv; assumption|]. intro. congruence.
Qed.

Definition Omega_tends (os : nat -> option (omgd R)) (w : option (omgd R)) : Prop :=
  match w with
  | None => forall n, os n = None
  | Some d => exists ds, (forall n, os n = Some (ds n)) /\ Un_cv (fun n => O_cos (ds n)) (O_cos d) /\ Un_cv (fun n => O_sin (ds n)) (O_sin d)
  end.

Theorem init_tends o : kep_init k x = Ok o -> physical o -> duration_fits k x o -> (ka_tper x <> None \/ sinw_of o <> -1) ->
  exists os, (forall n, kep_init k (xs n) = Ok (os n)) /\ attributes_tend os o /\ Un_cv (fun n => o_n (os n)) (o_n o) /\
    Omega_tends (fun n => o_Omega (os n)) (o_Omega o) /\ (sinw_of o <> -1 -> Un_cv (fun n => o_t0 (os n)) (o_t0 o)).
Proof.
  intros H ph NE HS. assert (Hpi := PI_pos). assert (H0 := H).
  unfold kep_init in H. inv_bind H. destruct v as [mpl rho].
  inv_bind H. destruct v as [[[a rs] dur] dao].
  inv_bind H. destruct v as [[[[[A P] RHO] RS] MS] MP].
  inv_bind H. rename v into ed.
  inv_bind H. destruct v as [[[b ci] inc] durattr].
  inv_bind H. destruct v as [t0 tp].
  apply Ok_inj in H. subst o.
  destruct ph as [pa pp pr pm pmp pmt pci pe po]. cbn [o_a o_period o_r_star o_m_star o_m_planet o_cos_incl o_ecc] in pa, pp, pr, pm, pmp, pmt, pci, pe, po.
  destruct (units_tend mpl rho E) as (mpls & rhos & En & Cmpl & Crho).
  assert (Durd : exists as_ rss durs gs, (forall n, kep_duration (xs n) = Ok (as_ n, rss n, durs n, gs n)) /\ given_tends qty_tends as_ a /\ given_tends qty_tends rss rs /\ given_tends qty_tends durs dur).
  { apply duration_tends with (g := dao); [exact E0| |].
    - intros p Hp. rewrite Hp in E1. apply (inputs_p _ _ _ _ _ _ _ _ _ _ _ _ E1 pp).
    - intros v Hv _ _. rewrite Hv in E1. rewrite <- (inputs_a _ _ _ _ _ _ _ _ _ _ _ _ E1). lra. }
  destruct Durd as (as_ & rss & durs & gs & En0 & Cas & Crs & Cdur).
  destruct (inputs_tend k kok _ _ _ _ _ _ _ _ _ _ _ _ _ Cas (at_period _ _ AT) Crho Crs (at_m_star _ _ AT) Cmpl E1) as (vs & En1 & C6).
  specialize (C6 (conj pa (conj pp (conj pr pmt)))).
  assert (SP : exists As Ps RHOs RSs MSs MPs, forall n, vs n = (As n, Ps n, RHOs n, RSs n, MSs n, MPs n)).
  { exists (fun n => fst (fst (fst (fst (fst (vs n)))))), (fun n => snd (fst (fst (fst (fst (vs n)))))), (fun n => snd (fst (fst (fst (vs n))))), (fun n => snd (fst (fst (vs n)))), (fun n => snd (fst (vs n))), (fun n => snd (vs n)).
    intro n. destruct (vs n) as [[[[[? ?] ?] ?] ?] ?]. reflexivity. }
  destruct SP as (As & Ps & RHOs & RSs & MSs & MPs & Evs).
  destruct C6 as (CA & CP & CRHO & CRS & CMS & CMP).
  apply (cv_ext _ As) in CA; [|intro n; rewrite Evs; reflexivity]. apply (cv_ext _ Ps) in CP; [|intro n; rewrite Evs; reflexivity]. apply (cv_ext _ RHOs) in CRHO; [|intro n; rewrite Evs; reflexivity].
  apply (cv_ext _ RSs) in CRS; [|intro n; rewrite Evs; reflexivity]. apply (cv_ext _ MSs) in CMS; [|intro n; rewrite Evs; reflexivity]. apply (cv_ext _ MPs) in CMP; [|intro n; rewrite Evs; reflexivity].
  destruct (omega_tends ed E2) as (eds & En2 & Ced).
  (* eccentric quantities *)
  pose (ec := fun (q : option (eccd R)) => match q with None => 0 | Some d => e_ecc d end). pose (cw := fun (q : option (eccd R)) => match q with None => 1 | Some d => e_cosw d end). pose (sw := fun (q : option (eccd R)) => match q with None => 0 | Some d => e_sinw d end).
  assert (Cec : Un_cv (fun n => ec (eds n)) (ec ed) /\ Un_cv (fun n => cw (eds n)) (cw ed) /\ Un_cv (fun n => sw (eds n)) (sw ed)).
  { destruct ed as [d|].
    - destruct Ced as (ds & Ed & C1 & C2 & C3). split; [|split]; eapply cv_ext; try eassumption; intro n; rewrite Ed; reflexivity.
    - cbn in Ced. split; [|split]; eapply cv_ext; try apply cv_const; intro n; rewrite Ced; reflexivity. }
  destruct Cec as (Ce & Ccw & Csw).
  assert (He : 0 <= ec ed < 1). { destruct ed as [d|]; cbn; [apply pe; reflexivity|lra]. }
  assert (Hs1 : -1 <= sw ed). { destruct ed as [d|]; cbn; [|lra]. specialize (po d eq_refl). nra. }
  assert (He2 : 0 < 1 - ec ed * ec ed) by nra.
  assert (Hes : 0 < 1 + ec ed * sw ed) by nra.
  set (n0 := 2 * PI / P). set (ns := fun n => 2 * PI / Ps n).
  assert (Cn : Un_cv ns n0) by (unfold ns, n0; cv; lra).
  assert (Hn0 : 0 < n0) by (unfold n0; apply Rdiv_lt_0_compat; lra).
  set (fac := fun q : option (eccd R) => match q with None => 1 | Some d => (1 + e_ecc d * e_sinw d) / (1 - npw (e_ecc d) 2) end).
  assert (Efac : forall q, fac q = (1 + ec q * sw q) / (1 - ec q * ec q)).
  { intros [d|]; unfold fac, ec, sw; cbn [npw]; simR; [|field; lra]. reflexivity. }
  assert (Cf : Un_cv (fun n => fac (eds n)) (fac ed)).
  { rewrite Efac. eapply cv_ext. { intro n. symmetry. apply Efac. } cv. lra. }
  assert (Hf : 0 < fac ed). { rewrite Efac. apply Rdiv_lt_0_compat; assumption. }
  set (dc := fac ed * RS / A). set (dcs := fun n => fac (eds n) * RSs n / As n).
  assert (Cdc : Un_cv dcs dc) by (unfold dc, dcs; cv; lra).
  assert (Hdc : 0 < dc) by (unfold dc; apply Rdiv_lt_0_compat; [nra|lra]).
  set (mt := MS + MP) in *. set (mts := fun n => MSs n + MPs n).
  assert (Cmt : Un_cv mts mt) by (unfold mt, mts; cv).
  assert (Cap : Un_cv (fun n => - As n * MSs n / mts n) (- A * MS / mt)) by (cv; unfold mt in *; lra).
  assert (NE' : ed = None \/ dur = None \/ exists q D w, dur = Some q /\ to_unit q (u_day k) = Ok D /\ ed = Some w /\
     let c := sin (PI * D * fac ed / P) in let den := c * c * ((e_ecc w * e_sinw w) * (e_ecc w * e_sinw w)) + 2 * (c * c) * (e_ecc w * e_sinw w) + c * c - (e_ecc w * e_ecc w) * (e_ecc w * e_ecc w) + 2 * (e_ecc w * e_ecc w) - 1 in
     den <> 0).
  { destruct NE as [[Z|Z]|(q & D & Eq & ED & den)].
    - left. unfold kep_omega in E2. rewrite Z in E2. apply Ok_inj in E2. congruence.
    - right. left. unfold kep_duration in E0. rewrite Z in E0. destruct (ka_ecc x); apply Ok_inj in E0; congruence.
    - destruct ed as [w|]; [|left; reflexivity]. right. right. exists q, D, w.
      assert (Ex : exists e, ka_ecc x = Some e). { unfold kep_omega in E2. destruct (ka_ecc x); [eauto|]. apply Ok_inj in E2. discriminate. }
      destruct Ex as (e & Ex). split. { unfold kep_duration in E0. rewrite Ex in E0. apply Ok_inj in E0. congruence. }
      split; [exact ED|]. split; [reflexivity|]. cbv zeta. destruct den as [den _]. unfold ecc_of, sinw_of in den. cbn [o_ecc o_period] in den. rewrite Efac. unfold ec, sw in *.
      set (c := sin _) in *. intro Z. apply den. set (F := (1 + e_ecc w * e_sinw w) / (1 - e_ecc w * e_ecc w)) in *.
      assert (EF : F * (1 - e_ecc w * e_ecc w) = 1 + e_ecc w * e_sinw w) by (unfold F; field; lra).
      apply (Rmult_eq_reg_r ((1 - e_ecc w * e_ecc w) * (1 - e_ecc w * e_ecc w))); [|apply Rgt_not_eq; apply Rmult_lt_0_compat; lra].
      transitivity (c * c * ((F * (1 - e_ecc w * e_ecc w)) * (F * (1 - e_ecc w * e_ecc w)))); [ring|]. rewrite EF. lra. }
  destruct (incl_tends durs dur eds ed (fun n => fac (eds n)) _ dcs dc As A Ps P (fun n => - As n * MSs n / mts n) _ RSs RS _ Cdur Ced Cdc (Rgt_not_eq _ _ Hdc) Cf CP (Rgt_not_eq _ _ pp) Cap CRS (Rgt_not_eq _ _ pr) NE' E3) as (is_ & En3 & Ci).
  set (MM := fun q : option (eccd R) => match q with None => (nlit 0.5 * nlit PI + nzl n0)%num | Some d => kep_M0 d end).
  destruct (times_tend Ps P (fun n => MM (eds n)) (MM ed) ns n0 _ (Rgt_not_eq _ _ Hn0) Cn E4) as (ts & En4 & Ct & Ctp).
  assert (CM : sw ed <> -1 -> Un_cv (fun n => MM (eds n)) (MM ed)).
  { intro Z. unfold MM. destruct ed as [d|].
    - destruct Ced as (ds & Ed & C1 & C2 & C3). eapply cv_ext; [|apply (M0_tends ds d); try assumption].
      + intro n. cbv beta. rewrite Ed. reflexivity.
      + cbn in Z, Hs1. lra.
    - cbn in Ced. eapply cv_ext; [|apply cv_const]. intro n. cbv beta. rewrite Ced. reflexivity. }
  unfold incl4_tend, vec_tends, vx, vy, vz in Ci. cbn [fst snd] in Ci. destruct Ci as (Cb & Cci & Cinc). cbn [fst snd] in Ct, Ctp.
  assert (SI : exists bs cis incs das, forall n, is_ n = (bs n, cis n, incs n, das n)).
  { exists (fun n => fst (fst (fst (is_ n)))), (fun n => snd (fst (fst (is_ n)))), (fun n => snd (fst (is_ n))), (fun n => snd (is_ n)). intro n. destruct (is_ n) as [[[? ?] ?] ?]. reflexivity. }
  destruct SI as (bs & cis & incs & das & Eis).
  apply (cv_ext _ bs) in Cb; [|intro n; rewrite Eis; reflexivity]. apply (cv_ext _ cis) in Cci; [|intro n; rewrite Eis; reflexivity]. apply (cv_ext _ incs) in Cinc; [|intro n; rewrite Eis; reflexivity].
  assert (ST : exists t0s tps, forall n, ts n = (t0s n, tps n)).
  { exists (fun n => fst (ts n)), (fun n => snd (ts n)). intro n. destruct (ts n). reflexivity. }
  destruct ST as (t0s & tps & Ets).
  assert (Csi := cv_sin _ _ Cinc).
  eexists. split.
  { intro n. unfold kep_init. rewrite En. cbn [rbind]. rewrite En0. cbn [rbind]. rewrite En1. cbn [rbind]. rewrite Evs. cbv beta iota zeta. rewrite En2. cbn [rbind].
    match goal with |- context [kep_incl k (xs n) ?d ?e ?f ?g ?a ?p ?q ?r] => change (kep_incl k (xs n) d e f g a p q r) with (kep_incl k (xs n) (durs n) (eds n) (fac (eds n)) (dcs n) (As n) (Ps n) (- As n * MSs n / mts n) (RSs n)) end.
    rewrite En3. cbn [rbind]. rewrite Eis. cbv beta iota zeta.
    match goal with |- context [kep_times (xs n) ?a ?b ?c] => change (kep_times (xs n) a b c) with (kep_times (xs n) (Ps n) (MM (eds n)) (ns n)) end.
    rewrite En4. cbn [rbind]. rewrite Ets. reflexivity. }
  assert (SW : forall q, q = -1 \/ q <> -1) by (intro q; destruct (Req_dec q (-1)); auto).
  cbn [o_a o_period o_rho_star o_r_star o_m_star o_m_planet o_m_total o_n o_a_star o_a_planet o_K0 o_Omega o_ecc o_M0 o_dcosidb o_b o_cos_incl o_incl o_sin_incl o_t0 o_tper o_tref].
  assert (Ctps : Un_cv tps tp).
  { apply (cv_ext (fun n => snd (ts n))); [intro n; rewrite Ets; reflexivity|]. destruct HS as [Z|Z]; [apply Ctp; exact Z|]. apply Ct, CM, Z. }
  split; [|split; [|split]].
  - constructor; cbn [o_a o_period o_rho_star o_r_star o_m_star o_m_planet o_m_total o_n o_a_star o_a_planet o_K0 o_Omega o_ecc o_M0 o_dcosidb o_b o_cos_incl o_incl o_sin_incl o_t0 o_tper o_tref]; simR; try assumption.
    + cv; unfold mt in *; lra.
    + assert (EK : forall q n, match q with Some d => n / sqrt (1 - npw (e_ecc d) 2) | None => n end = n / sqrt (1 - ec q * ec q)).
      { intros [d|] n; unfold ec; cbn [npw]; simR; [reflexivity|]. rewrite Rmult_0_l, Rminus_0_r, sqrt_1. field. }
      assert (0 < sqrt (1 - ec ed * ec ed)) by (apply sqrt_lt_R0; assumption).
      assert (CK : Un_cv (fun n => ns n * As n / mts n / sqrt (1 - ec (eds n) * ec (eds n))) (n0 * A / mt / sqrt (1 - ec ed * ec ed))) by (cv; unfold mt in *; lra).
      rewrite <- EK in CK. refine (cv_ext _ _ _ _ CK). intro n. symmetry. apply EK.
  - exact Cn.
  - assert (G := at_Omega _ _ AT). destruct (ka_Omega x) as [w|].
    + destruct G as (ws & Ew & Cw). eexists. split. { intro n. rewrite Ew. reflexivity. } cbn [O_cos O_sin]. simR. split; cv.
    + intro n. cbn in G. rewrite G. reflexivity.
  - intro Z. apply (cv_ext (fun n => fst (ts n))); [intro n; rewrite Ets; reflexivity|]. apply Ct, CM, Z.
Qed.
End S.
