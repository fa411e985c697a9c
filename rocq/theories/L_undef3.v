(** * Undefined times: SimpleTransitOrbit and TTVOrbit; undefined radii *)
From Coq Require Import Reals Lra Lia List Bool Arith ZArith.
From Verif Require Import Num CoreOps Inst CoreFlux M_units M_kepler M_fin M_tensor M_simple M_ttv M_limbdark Spec_orbit Spec_params Spec_array Spec_simple Spec_ttv Spec_light Spec_undef
  L_real L_orbit L_params3 L_fl L_flux L_tens L_shape L_transit3 L_transit4 L_shapeS L_reshape L_array L_light1 L_light2 L_light3 L_light4 L_light7 L_simple L_simple2 L_ttv3 L_ttv7 L_undef L_undef2.
Import ListNotations.
Local Notation length := List.length.
Open Scope R_scope.

(** ** SimpleTransitOrbit *)
Section S.
Variables (n : nat) (x : sargs tens) (xs : nat -> sargs R).
Hypothesis sys : simple_system n x xs.
Hypothesis ok : forall j, (j < n)%nat -> simple_ok (xs j).
Let sg j : simple fl := simple_init (map_sargs Fin (xs j)).
Definition sposF (j : nat) (t : fl) : fl * fl * fl :=
  let dt := simple_dt (sg j) t in
  (s_speed (sg j) * dt, s_b_norm (sg j) + nzl dt, nsw (nlt (nabs dt) (nlit 0.5 * s_duration (sg j))) (nlit 1) (- nlit 1))%num.
Lemma simpleF : answersF (simple_api (simple_init x)) false n sposF.
Proof.
  destruct (simple_sn n x xs sys) as (S1 & S2 & S3 & S4).
  intros s t Et Wt. cbn [oa_pos simple_api]. unfold simple_relative_position. assert (E := simple_dt_ens n x xs sys s t Et).
  set (dt := simple_dt (simple_init x) t) in *.
  eexists _, _, _, (squeezed (n :: s)). split; [reflexivity|]. apply (answersF_of n s t); try assumption.
  + apply ENS_map2r; assumption.
  + apply ENS_map2r; [assumption|apply ENS_map; assumption].
  + assert (M : ENS n s (nlt (nabs dt) (nlit 0.5 * s_duration (simple_init x))%num)) by (apply ENS_map2l; [apply ENS_map; assumption|apply Sn_map2; [apply Sn_lit|assumption]]).
    unfold ENS in M. change (bcr (ash (nlt (nabs dt) (nlit 0.5 * s_duration (simple_init x))%num)) (bcr (Ok []) (Ok [])) = Ok (n :: s)).
    refine (eq_trans (f_equal (fun z => bcr z (bcr (Ok []) (Ok []))) M) _). change (match bc (n :: s) [] with Some c => Ok c | None => Err ShapeErr end = Ok (n :: s)). rewrite bc_nil. reflexivity.
  + intros i Hi. assert (A := sargs_at_any n x xs sys i Hi). unfold sposF, sg. rewrite <- A. unfold dt. destruct x as [? ? [?|] [?|] [?|] [?|]]; reflexivity.
Qed.
Lemma simple_rst : planetF n (oa_r_star (simple_api (simple_init x))) (fun j => Fin (dflt 1 (sa_r_star (xs j)))).
Proof. destruct (simple_answers n x xs sys ok) as [_ [H1 H2]]. split; assumption. Qed.
Lemma simple_dtU j t : undefined t -> simple_dt (sg j) t = NaN.
Proof. intro H. unfold simple_dt. nn. rewrite modU by (apply und_sub; left; exact H). reflexivity. Qed.
Lemma smaskU j t r e : undefined t -> simple_mask (sg j) t r e = false.
Proof. intro H. unfold simple_mask. rewrite (simple_dtU j t H). nn. nan. reflexivity. Qed.
Lemma simple_masks (r : tens) : per_planet n r -> masksF (simple_api (simple_init x)) false n r.
Proof.
  intro Hr. exists (fun _ => true), (fun ev j t => simple_mask (sg j) t (Some (aget r (at_planet j))) ev).
  split; [intros ev j t U; apply smaskU, U|].
  intros N t texp Ht H1 H2. cbv zeta. cbn [oa_in_transit simple_api].
  assert (Ho : opt_per_planet n texp).
  { destruct texp as [e|]; [|exact I]. cbn. split; [apply (H2 e eq_refl)|]. left. apply H1. reflexivity. }
  rewrite (simple_list n N x xs t sys Ht (Some r) texp Hr Ho). f_equal.
  apply filter_ext_in. intros m Hm. apply in_seq in Hm.
  assert (G : forall ks, (forall j, In j ks -> (j < n)%nat) ->
    existsb (fun j => aget (simple_mask (B := btens) (simple_init x) t (Some r) texp) (cons_ix j (cons_ix m ix0))) ks
    = existsb (fun j => simple_mask (sg j) (aget t (at_time m)) (Some (aget r (at_planet j))) (option_map (fun e : tens => aget e ix0) texp)) ks).
  { induction ks as [|j ks IH]; intro Hk; [reflexivity|]. cbn [existsb]. rewrite IH by (intros; apply Hk; right; assumption). f_equal.
    rewrite (simple_mask_at n x xs t sys). assert (Hj : (j < n)%nat) by (apply Hk; left; reflexivity).
    rewrite (sargs_at_any n x xs sys (cons_ix j (cons_ix m ix0)) Hj), (time_ix N t j m Ht), (te_at_ix texp _ H1 H2). cbn [option_map].
    rewrite (sn_at n r (cons_ix j (cons_ix m ix0)) (pp_sn n r Hr)). reflexivity. }
  apply G. intros j Hj. apply in_seq in Hj. lia.
Qed.
Lemma simpleU j t : undefined t -> fst (fst (sposF j t)) = NaN /\ snd (sposF j t) = Fin (-1).
Proof. intro H. unfold sposF. rewrite (simple_dtU j t H). nn. nan. split; reflexivity. Qed.

Variables (l : limbdark) (r : tens) (sr : shape) (use : option bool).
Hypothesis Sr : ash r = Ok sr.
Hypothesis Pr : prod sr = n.
Lemma simple_skips : skips_undefined n (fun e => masks use false = true -> single e)
  (fun t e osam order => get_light_curve l (Some (simple_api (simple_init x))) (Some r) (Some t) e osam order use false).
Proof.
  apply (skips_ok l (simple_api (simple_init x)) false n sposF (fun j => Fin (dflt 1 (sa_r_star (xs j)))) simpleF simple_rst) with (sr := sr); try assumption.
  - intros j t Hj U. rewrite (proj2 (simpleU j t U)). assert (P0 : 0 < dflt 1 (sa_r_star (xs j))) by apply (ok j Hj).
    cbn [fdiv]. rewrite (Reqb_ne _ 0) by lra. cbn [flt]. unfold Rltb. destruct (Rlt_dec _ _) as [C|]; [|reflexivity]. exfalso.
    assert (I0 := Rinv_0_lt_compat _ P0). unfold Rdiv in C. lra.
  - intros _. apply simple_masks. assert (R := rF_sn n r sr Sr Pr). assert (S := rF_sh n r sr Sr Pr). split; [|right; exact S].
    intros s Hs i i' Hi. rewrite Hs in S. injection S as ->. destruct R as [[C _]|[_ R]]; [rewrite Hs in C; discriminate C|].
    destruct (Nat.eq_dec n 1) as [E1|E1]; [|apply R, Hi; exact E1].
    rewrite Sr. cbn [rmap]. rewrite !(reshape_at r sr [prod sr] _ Sr), Pr, E1. reflexivity.
Qed.
End S.

(** ** TTVOrbit *)
Section T.
Variables (k : consts) (n : nat) (o : ttvorbit) (os : nat -> orbit R) (tts : nat -> list R).
Hypothesis kok : consts_ok k.
Hypothesis sys : ttv_system k n o os tts.
Definition tposF (j : nat) (t : fl) : fl * fl * fl :=
  position_nodelay k (fin_orbit (os j)) (wj o os j) (- o_a (fin_orbit (os j)))%num t None true.
Lemma ttv_parts : orbit_sn n (tt_orbit o) /\ En n (o_n (tt_orbit o)) /\ En n (o_period (tt_orbit o)) /\ (0 < n)%nat /\
  forall i, (i O < n)%nat -> orbit_at i (tt_orbit o) = fin_orbit (os (i O)).
Proof.
  destruct (under k n o os tts sys) as (x & xs & Hx & Sy). destruct (system_orbit k n x xs os kok Sy) as (o' & Ho & So & Eno & Epo & Oat).
  rewrite Hx in Ho. apply Ok_inj in Ho. subst o'. split; [exact So|]. split; [exact Eno|]. split; [exact Epo|]. split; [apply (sy_n _ _ _ _ _ Sy)|exact Oat].
Qed.
Lemma ttvF cp : answersF (ttv_api k cp o) false n tposF.
Proof.
  destruct ttv_parts as (So & Eno & Epo & Hn & Oat).
  intros s t Et Wt. cbn [oa_pos ttv_api]. unfold get_relative_position, get_position.
  change (position_nodelay k (tt_orbit o) (ttv_warp o) (- o_a (tt_orbit o))%num t None true)
    with (position_nodelay k (tt_orbit o) (w' o) (- o_a (tt_orbit o))%num t None true).
  assert (Sa : Sn n (- o_a (tt_orbit o))%num) by apply (Sn_map n fneg), (os_a _ _ So).
  assert (Sh := pos_nd_shapeS n s k (tt_orbit o) So Eno (w' o) (w'_T1S k n o os tts sys s) (w'_ENS k n o os tts kok sys s) (- o_a (tt_orbit o))%num t None true Sa I Et _ eq_refl).
  assert (Va : forall i, (i O < n)%nat -> map_vec (fun a : tens => aget a i) (position_nodelay k (tt_orbit o) (w' o) (- o_a (tt_orbit o))%num t None true)
     = tposF (i O) (aget t (fun d => i (S d)))).
  { intros i Hi.
    assert (Hw1 : forall u, aget (w' o true u) i = wj o os (i O) true (aget u (fun d => i (S d)))) by (intro u; apply (warp_at1 k n o os tts sys i u Hi)).
    assert (Hw0 : forall u, aget (w' o false u) i = wj o os (i O) false (aget u i)).
    { intro u. cbn [w' wj]. rewrite kep_warp_at0, (Oat i Hi). reflexivity. }
    etransitivity; [apply (pos_nd_at k i (tt_orbit o) (w' o) (wj o os (i O)) Hw1 Hw0)|]. rewrite (Oat i Hi). cbn [option_map]. unfold tposF.
    replace (aget (- o_a (tt_orbit o))%num i) with (- o_a (fin_orbit (os (i O))))%num; [reflexivity|]. rewrite <- (Oat i Hi). reflexivity. }
  destruct (position_nodelay k (tt_orbit o) (w' o) (- o_a (tt_orbit o))%num t None true) as [[X Y] Z]. cbn [fst snd] in Sh. destruct Sh as (SX & SY & SZ).
  exists (asqz X), (asqz Y), (asqz Z), (squeezed (n :: s)). split; [reflexivity|].
  apply (answersF_of n s t X Y Z tposF Et Wt SX SY SZ). intros i Hi. exact (Va i Hi).
Qed.
Lemma ttv_rst cp : planetF n (oa_r_star (ttv_api k cp o)) (fun j => Fin (o_r_star (os j))).
Proof.
  destruct ttv_parts as (So & Eno & Epo & Hn & Oat). cbn [oa_r_star ttv_api]. split; [destruct (os_r _ _ So) as [[E _]|[E _]]; [left|right]; exact E|].
  intros i Hi. assert (E := Oat i Hi). apply (f_equal (fun o => o_r_star o)) in E. exact E.
Qed.
Lemma ttv_masks cp (r : tens) : Sn n r -> masksF (ttv_api k (lift_cp cp) o) false n r.
Proof.
  intro Hr. destruct ttv_parts as (So & Eno & Epo & Hn & Oat).
  pose (en := fun ev t j => transit_mask (fin_orbit (os j)) (fun _ u => fsub u (look o j u)) cp t (aget r (at_planet j)) ev).
  exists (fun ev => forallb (fun j => feq0 (snd (en ev NaN j))) (seq 0 n)), (fun ev j t => fst (en ev t j)).
  split; [intros ev j t U; apply maskU; [intros pad u Hu; apply und_sub; left; exact Hu|exact U]|].
  intros N t texp Ht H1 H2. cbv zeta. cbn [oa_in_transit ttv_api].
  assert (Hw : T1 n N (ttv_warp o true t)) by apply (w'_T1 k n N o os tts sys t (proj2 Ht)).
  assert (St := te_sn' n texp H1 H2).
  destruct (Nat.eq_dec N 0) as [E|E].
  - rewrite (kin_nil n N (tt_orbit o) So Eno Epo (ttv_warp o) t (proj2 Ht) Hw cp r texp Hr St E). subst N. destruct (forallb _ _); reflexivity.
  - pose (wf := fun (i : idx) (_ : bool) (u : fl) => fsub u (look o (if Nat.eqb n 1 then 0%nat else i O) u)).
    rewrite (kin_list n N (tt_orbit o) So Eno Epo Hn (ttv_warp o) t (proj2 Ht) Hw cp r texp Hr St
      (fun m j => en (option_map (fun e : tens => aget e ix0) texp) (aget t (at_time m)) j) wf); [| | |lia].
    + unfold flags_ok, picked. f_equal. assert (Ef : forall j, snd (en (option_map (fun e : tens => aget e ix0) texp) (aget t (at_time 0)) j) = snd (en (option_map (fun e : tens => aget e ix0) texp) NaN j)) by (intro j; apply flag_free).
      replace (forallb (fun j => feq0 (snd (en (option_map (fun e : tens => aget e ix0) texp) (aget t (at_time 0)) j))) (seq 0 n))
        with (forallb (fun j => feq0 (snd (en (option_map (fun e : tens => aget e ix0) texp) NaN j))) (seq 0 n)); [reflexivity|].
      generalize (seq 0 n). induction l as [|j l0 IH]; [reflexivity|]. cbn [forallb]. rewrite IH, Ef. reflexivity.
    + intro i. unfold wf, ttv_warp, ttv_model_dt, look. destruct (n_len k n o os tts sys) as [L _]. rewrite L. cbn.
      destruct (Nat.eqb n 1); reflexivity.
    + intros m j Hm Hj i. unfold en. assert (Hi : (i O < n)%nat) by exact Hj.
      rewrite (Oat i Hi). unfold i at 3. rewrite (time_ix N t j m Ht), (te_at_ix texp i H1 H2), (sn_at n r i Hr). unfold wf. change (i O) with j.
      destruct (Nat.eqb_spec n 1) as [E1|E1]; [|reflexivity]. replace j with 0%nat by lia. reflexivity.
Qed.
Lemma ttv_warpU j pad t : undefined t -> undefined (wj o os j pad t).
Proof. intro H. unfold wj. destruct pad; [apply und_sub; left; exact H|apply warpU, H]. Qed.

Variables (l : limbdark) (r : tens) (sr : shape) (use : option bool).
Hypothesis Sr : ash r = Ok sr.
Hypothesis Pr : prod sr = n.
Lemma ttv_skips cp : skips_undefined n (fun e => masks use false = true -> single e)
  (fun t e osam order => get_light_curve l (Some (ttv_api k (lift_cp cp) o)) (Some r) (Some t) e osam order use false).
Proof.
  apply (skips_ok l (ttv_api k (lift_cp cp) o) false n tposF (fun j => Fin (o_r_star (os j))) (ttvF _) (ttv_rst _)) with (sr := sr); try assumption.
  - intros j t _ U. unfold tposF. rewrite (posU k _ _ (ttv_warpU j)) by exact U. unfold nan3. cbn [snd]. rewrite divNl. reflexivity.
  - intros _. apply ttv_masks. exact (rF_sn n r sr Sr Pr).
Qed.
End T.

(** ** Undefined radii *)
Lemma kep_circT k (x : kargs tens) o : kep_init k x = Ok o -> ka_ecc x = None -> o_ecc o = None.
Proof.
  intros H E. unfold kep_init in H.
  destruct (kep_units x) as [[mpl rho]|]; [cbn [rbind] in H|discriminate H].
  destruct (kep_duration x) as [[[[a rs] dur] dao]|]; [cbn [rbind] in H|discriminate H].
  destruct (consistent_inputs k _ _ _ _ _ _) as [[[[[[A P] RHO] RS] MS] MP]|]; [cbn [rbind] in H|discriminate H].
  assert (EO : kep_omega x = Ok None) by (unfold kep_omega; rewrite E; reflexivity).
  rewrite EO in H. cbn [rbind] in H.
  destruct (kep_incl _ _ _ _ _ _ _ _ _ _) as [[[[b ci] inc] da]|]; [cbn [rbind] in H|discriminate H].
  destruct (kep_times _ _ _ _) as [[t0 tp]|]; [cbn [rbind] in H|discriminate H].
  apply Ok_inj in H. subst o. reflexivity.
Qed.
Lemma und_div a b : undefined a -> undefined (fdiv a b).
Proof.
  intro H. apply und_cases in H. destruct H as [[s ->]| ->]; [|intros ?; discriminate]. destruct b as [y|s'|]; cbn; try destruct (Rltb _ _); intros ?; discriminate.
Qed.
Lemma und_sqrt a : undefined a -> undefined (fsqrt a).
Proof. intro H. apply und_cases in H. destruct H as [[[|] ->]| ->]; intros ?; discriminate. Qed.
Lemma windowU (o : orbit fl) cp r : o_ecc o = None -> undefined r -> transit_window o cp r = (NaN, NaN, Fin 0).
Proof.
  intros E H. unfold transit_window. rewrite E. cbv zeta. nn.
  match goal with |- context [nasin ?a] => assert (U : undefined a) end.
  { apply und_mul. right. apply und_sqrt. apply und_sub. left. apply und_mul. left. apply und_add. right. apply und_div. apply und_add. left. exact H. }
  assert (A : forall a, undefined a -> farc asin a = NaN) by (intros a Ha; apply und_cases in Ha; destruct Ha as [[s ->]| ->]; reflexivity).
  cbn [nasin NumF]. rewrite (A _ U). nan. reflexivity.
Qed.
Lemma radiusU k n x o l r sr cp N t e ev osam order : (0 < n)%nat -> planet_args n x -> kep_init k x = Ok o -> ka_ecc x = None ->
  ash r = Ok sr -> prod sr = n -> (forall j, (j < n)%nat -> undefined (flat r j)) ->
  is_vector N t -> exposure_values N e ev -> single e -> (0 <= osam)%Z -> (order = 0 \/ order = 1 \/ order = 2)%Z ->
  exists X, get_light_curve l (Some (kep_api k (lift_cp cp) o)) (Some r) (Some t) e osam order None false = Ok X /\ light_table n N X (fun _ _ => 0).
Proof.
  intros Hn Px Hx Hc Sr Pr Ur Ht He H1 Ho Hor. destruct (stencil_exists osam order Ho Hor) as (nodes & weights & St).
  unfold get_light_curve. cbn [negb].
  assert (L : oa_in_transit (kep_api k (lift_cp cp) o) t (areshape (rmap (fun s => [prod s]) (ash r)) r) e false = Ok []).
  { assert (Sn0 := rF_sn n r sr Sr Pr). assert (We : forall a, e = Some a -> twf a) by (intros a ->; apply He).
    destruct (kep_init_sn n k x o Px Hx) as (So & Eno & Epo). cbn [oa_in_transit kep_api].
    set (r' := areshape _ r) in *.
    assert (Hw : T1 n N (kep_warp o true t)) by (apply (T1_map2l n N fsub); [apply padr_T1; apply Ht|apply (os_t0 _ _ So)]).
    assert (Ste := te_sn' n e H1 We).
    assert (EN0 : forall m j, (m < N)%nat -> (j < n)%nat -> let i := cons_ix j (cons_ix m ix0) in
      transit_mask (orbit_at i o) (kep_warp (orbit_at i o)) cp (aget t (fun d => i (S d))) (aget r' i) (option_map (fun a : tens => aget a i) e) = (false, Fin 0)).
    { intros m j Hm Hj i. unfold transit_mask. rewrite (windowU (orbit_at i o)).
      - destruct e; cbn [option_map]; nn; nan; reflexivity.
      - cbn [orbit_at map_orbit o_ecc]. unfold orbit_at. cbn [map_orbit o_ecc]. rewrite (kep_circT k x o Hx Hc). reflexivity.
      - assert (Ri := rF_val n r sr Sr Pr i Hj). fold r' in Ri. rewrite Ri. apply Ur. exact Hj. }
    destruct (Nat.eq_dec N 0) as [E|E].
    - apply (kin_nil n N o So Eno Epo (kep_warp o) t (proj2 Ht) Hw cp r' e Sn0 Ste E).
    - rewrite (kin_list n N o So Eno Epo Hn (kep_warp o) t (proj2 Ht) Hw cp r' e Sn0 Ste (fun _ _ => (false, Fin 0)) (fun i => kep_warp (orbit_at i o)));
        [|intro i; apply kep_warp_at1|exact EN0|lia].
      unfold flags_ok, picked. cbn [fst snd].
      assert (F1 : forall ks : list nat, forallb (fun _ => feq0 (Fin 0)) ks = true) by (induction ks as [|? ? IH]; [reflexivity|cbn [forallb]; rewrite IH; cbn [feq0]; rewrite (proj2 (L_real.Reqb_true 0 0) eq_refl); reflexivity]).
      assert (F2 : forall ks : list nat, existsb (fun _ => false) ks = false) by (induction ks as [|? ? IH]; [reflexivity|cbn [existsb]; exact IH]).
      rewrite F1, F2. f_equal. generalize (seq 0 N). induction l0 as [|? ? IH]; [reflexivity|]. cbn [filter]. exact IH. }
  destruct (maskedF l (kep_api k (lift_cp cp) o) false n _ _ (kepF k n x o Px Hx _ false) (kep_rst k n x o Px Hx _) r sr Sr Pr N t e ev osam order nodes weights Ht He St H1 [] L) as (X & EX & SX & VX); [intros ? []|].
  exists X. split; [exact EX|]. split; [exact SX|]. intros m j Hm Hj. apply (VX m j Hm Hj). intros [].
Qed.

(** ** in_transit *)
Lemma kepler_circ_finds k n x o cp r : (0 < n)%nat -> planet_args n x -> kep_init k x = Ok o -> ka_ecc x = None -> per_planet n r ->
  finds_defined n false (fun t e => kep_in_transit o (kep_warp o) (lift_cp cp) t r e false).
Proof.
  intros Hn Px Hx Hc Hr N t e ev Ht He H1.
  destruct (Nat.eq_dec N 0) as [EN0|EN0].
  { destruct (kepler_finds k n x o cp r Hn Px Hx Hr N t e ev Ht He H1) as (l & El & [D|[_ D]]); exists l; (split; [exact El|left]); [exact D|]. subst l N. intros m []. }
  assert (We : forall a, e = Some a -> twf a) by (intros a ->; apply He).
  destruct (kep_init_sn n k x o Px Hx) as (So & Eno & Epo). assert (Sr := pp_sn n r Hr).
  assert (Hw : T1 n N (kep_warp o true t)) by (apply (T1_map2l n N fsub); [apply padr_T1; apply Ht|apply (os_t0 _ _ So)]).
  assert (Ste := te_sn' n e H1 We).
  pose (en := fun m j => let i := cons_ix j (cons_ix m ix0) in
    transit_mask (orbit_at i o) (kep_warp (orbit_at i o)) cp (aget t (fun d => i (S d))) (aget r i) (option_map (fun a : tens => aget a i) e)).
  eexists. split; [apply (kin_list n N o So Eno Epo Hn (kep_warp o) t (proj2 Ht) Hw cp r e Sr Ste en (fun i => kep_warp (orbit_at i o)));
    [intro i; apply kep_warp_at1|reflexivity|lia]|].
  assert (F : flags_ok n en = true).
  { unfold flags_ok. apply forallb_forall. intros j _. unfold en. cbv zeta. unfold transit_mask, transit_window.
    assert (Ec : o_ecc (orbit_at (cons_ix j (cons_ix 0 ix0)) o) = None) by (unfold orbit_at; cbn [map_orbit o_ecc]; rewrite (kep_circT k x o Hx Hc); reflexivity).
    rewrite Ec. cbn [snd feq0 nzl NumF]. apply L_real.Reqb_true. reflexivity. }
  rewrite F. left. intros m Hm. unfold picked in Hm. apply filter_In in Hm. destruct Hm as [Hm Hz]. apply in_seq in Hm. split; [lia|].
  intro U. apply existsb_exists in Hz. destruct Hz as (j & _ & Hz). revert Hz. unfold en. cbv zeta. rewrite (time_ix N t j m Ht), maskU; [discriminate|apply warpU|exact U].
Qed.
Lemma simple_finds n x xs r : simple_system n x xs -> per_planet n r ->
  finds_defined n false (fun t e => simple_in_transit (simple_init x) t (Some r) e false).
Proof.
  intros sys Hr N t e ev Ht He H1.
  assert (Ho : opt_per_planet n e).
  { destruct e as [a|]; [|exact I]. cbn. split; [apply He|]. left. apply H1. reflexivity. }
  eexists. split; [apply (simple_list n N x xs t sys Ht (Some r) e Hr Ho)|]. left. intros m Hm. apply filter_In in Hm. destruct Hm as [Hm Hz]. apply in_seq in Hm. split; [lia|].
  intro U. apply existsb_exists in Hz. destruct Hz as (j & Hj & Hz). apply in_seq in Hj. revert Hz. rewrite (simple_mask_at n x xs t sys).
  rewrite (sargs_at_any n x xs sys (cons_ix j (cons_ix m ix0))) by (cbn; lia). rewrite (time_ix N t j m Ht), (smaskU xs j _ _ _ U). discriminate.
Qed.
Lemma ttv_finds k n o os tts cp r : consts_ok k -> ttv_system k n o os tts -> per_planet n r ->
  finds_defined n true (fun t e => kep_in_transit (tt_orbit o) (ttv_warp o) (lift_cp cp) t r e false).
Proof. intros kok sys Hr. exact (finds_of (ttv_api k (lift_cp cp) o) n r (ttv_masks k n o os tts kok sys cp r (pp_sn n r Hr))). Qed.
Lemma simple_positionU (x : sargs fl) t : undefined t ->
  simple_relative_position (simple_init x) t false = Ok (NaN, fadd (fmul (dflt (Fin 0) (sa_b x)) (dflt (Fin 1) (sa_r_star x))) (Fin 0), Fin (-1)).
Proof.
  intro H. unfold simple_relative_position. assert (E : simple_dt (simple_init x) t = NaN).
  { unfold simple_dt. nn. rewrite modU by (apply und_sub; left; exact H). reflexivity. }
  rewrite E. nn. nan. reflexivity.
Qed.
