(** * Undefined times: the orbits of the library *)
From Coq Require Import Reals Lra Lia List Bool Arith ZArith.
From Verif Require Import Num CoreOps Inst CoreFlux M_units M_kepler M_fin M_tensor M_simple M_ttv M_limbdark Spec_orbit Spec_params Spec_array Spec_simple Spec_ttv Spec_light Spec_undef
  L_real L_orbit L_params3 L_fl L_flux L_tens L_shape L_transit3 L_transit4 L_shapeS L_reshape L_array L_light1 L_light2 L_light3 L_light4 L_light7 L_simple L_simple2 L_ttv3 L_ttv7 L_undef.
Import ListNotations.
Local Notation length := List.length.
Open Scope R_scope.

(** ** NaN spreads *)
Lemma addNl a : fadd NaN a = NaN. Proof. reflexivity. Qed.
Lemma addNr a : fadd a NaN = NaN. Proof. destruct a; reflexivity. Qed.
Lemma subNl a : fsub NaN a = NaN. Proof. reflexivity. Qed.
Lemma subNr a : fsub a NaN = NaN. Proof. destruct a; reflexivity. Qed.
Lemma mulNl a : fmul NaN a = NaN. Proof. reflexivity. Qed.
Lemma mulNr a : fmul a NaN = NaN. Proof. destruct a; reflexivity. Qed.
Lemma divNl a : fdiv NaN a = NaN. Proof. reflexivity. Qed.
Lemma divNr a : fdiv a NaN = NaN. Proof. destruct a; reflexivity. Qed.
Lemma trigU f a : undefined a -> ftrig f a = NaN.
Proof. intro H. apply und_cases in H. destruct H as [[s ->]| ->]; reflexivity. Qed.
Lemma kepU f a e : undefined a -> fkep f a e = NaN.
Proof. intro H. apply und_cases in H. destruct H as [[s ->]| ->]; reflexivity. Qed.
Lemma modU a b : undefined a -> fmod a b = NaN.
Proof. intro H. apply und_cases in H. destruct H as [[s ->]| ->]; reflexivity. Qed.
Ltac nn := cbn [nlit nadd nsub nmul ndiv nneg nsqrt nsin ncos nabs natan2 nmod nkepler_sin nkepler_cos nzl npadr nsqz nlt nle nband nsw NumF npw].
Ltac nan := repeat first [rewrite addNl | rewrite addNr | rewrite subNl | rewrite subNr | rewrite mulNl | rewrite mulNr | rewrite divNl | rewrite divNr | progress cbn [fneg fsqrt fabs flt fle fatan2]].

Section O.
Variables (k : consts) (o : orbit fl) (w : bool -> fl -> fl).
Hypothesis Hw : forall pad t, undefined t -> undefined (w pad t).
Lemma anomU pad t : undefined t -> true_anomaly o w pad t = (NaN, NaN).
Proof.
  intro H. unfold true_anomaly. assert (U : undefined (fmul (fsub (w pad t) (o_tref o)) (o_n o))) by (apply und_mul; left; apply und_sub; left; apply Hw, H).
  nn. destruct (o_ecc o) as [d|]; [rewrite !kepU by exact U|rewrite !trigU by exact U]; reflexivity.
Qed.
Lemma rotU : rotate_vector o NaN NaN = nan3.
Proof. unfold rotate_vector, nan3. nn. destruct (o_ecc o), (o_Omega o); nan; reflexivity. Qed.
Lemma posU a t par pad : undefined t -> position_nodelay k o w a t par pad = nan3.
Proof.
  intro H. unfold position_nodelay. rewrite (anomU pad t H). nn. nan. apply rotU.
Qed.
Lemma getposU a t par ld pad : undefined t -> get_position k o w a t par ld pad = nan3.
Proof.
  intro H. unfold get_position. destruct ld; [|apply posU, H]. unfold retarded_position, retarded_state. rewrite (anomU pad t H).
  assert (R := rotU). destruct (o_ecc o) as [d|] eqn:E; cbv zeta; nn; nan; rewrite R; unfold nan3, light_delay_of; nn; nan;
    destruct pad; rewrite (posU _ NaN) by (intros ?; discriminate); reflexivity.
Qed.
Lemma velU m t : undefined t -> get_velocity o w m t = nan3.
Proof. intro H. unfold get_velocity. rewrite (anomU true t H). nn. destruct (o_ecc o); nan; apply rotU. Qed.
Lemma accU a m t : undefined t -> get_acceleration o w a m t = nan3.
Proof. intro H. unfold get_acceleration. rewrite (anomU true t H). nn. nan. apply rotU. Qed.
Lemma sinceU t : undefined t -> since_transit o w t = NaN.
Proof. intro H. unfold since_transit. nn. rewrite modU by (apply und_add; left; apply Hw, H). reflexivity. Qed.
Lemma maskU cp t r e : undefined t -> fst (transit_mask o w cp t r e) = false.
Proof.
  intro H. unfold transit_mask. rewrite (sinceU t H). destruct (transit_window o cp r) as [[a b] f]. cbn [fst]. nn.
  set (a' := match e with None => a | Some _ => _ end). clearbody a'. destruct a'; reflexivity.
Qed.
End O.
Lemma warpU (o : orbit fl) pad t : undefined t -> undefined (kep_warp o pad t).
Proof. intro H. unfold kep_warp. destruct pad; apply und_sub; left; exact H. Qed.

(** ** Positions, velocities, accelerations, radial velocities *)
Lemma motionU k (o : orbit fl) t : undefined t ->
  (forall b par ld, pos k o b t par ld = nan3) /\ (forall b, vel o b t = nan3) /\ (forall b, acc o b t = nan3) /\
  (forall par ld, get_relative_angles k o (kep_warp o) t par ld = (NaN, NaN)) /\
  (forall K u v, get_radial_velocity k o (kep_warp o) t K u = Ok v -> v = NaN).
Proof.
  intro H. assert (W := warpU o). split; [|split; [|split; [|split]]].
  - intros b par ld. destruct b; unfold pos, get_planet_position, get_star_position, get_relative_position; rewrite (getposU k o _ W) by exact H; reflexivity.
  - intros b. destruct b; unfold vel, get_planet_velocity, get_star_velocity, get_relative_velocity; rewrite (velU o _ W) by exact H; reflexivity.
  - intros b. destruct b; unfold acc, get_planet_acceleration, get_star_acceleration, get_relative_acceleration; rewrite (accU o _ W) by exact H; reflexivity.
  - intros par ld. unfold get_relative_angles. rewrite (getposU k o _ W) by exact H. unfold nan3. nn. nan. reflexivity.
  - intros K u v. unfold get_radial_velocity. destruct K as [K|].
    + rewrite (anomU o _ W true t H). destruct (o_ecc o); nn; nan; intro E; injection E as <-; reflexivity.
    + destruct (uto _ _) as [c|]; cbn [rbind]; [|discriminate]. unfold get_star_velocity. rewrite (velU o _ W) by exact H.
      unfold nan3, sqz3. nn. nan. intro E. injection E as <-. reflexivity.
Qed.

(** ** Light curves *)
Lemma answersF_of (n : nat) (s : shape) (t : tens) (X Y Z : tens) (f : nat -> fl -> fl * fl * fl) :
  ash t = Ok s -> twf t ->
  ash X = Ok (n :: s) -> ash Y = Ok (n :: s) -> ash Z = Ok (n :: s) ->
  (forall i, (i O < n)%nat -> (aget X i, aget Y i, aget Z i) = f (i O) (aget t (fun k => i (S k)))) ->
  prod (squeezed (n :: s)) = prod (n :: s) /\
  listsF n s t (asqz X) (squeezed (n :: s)) (fun j t => fst (fst (f j t))) /\
  listsF n s t (asqz Y) (squeezed (n :: s)) (fun j t => snd (fst (f j t))) /\
  listsF n s t (asqz Z) (squeezed (n :: s)) (fun j t => snd (f j t)).
Proof.
  intros Et Wt SX SY SZ V. split; [apply prod_squeezed|].
  assert (G : forall (W : tens) (pr : fl * fl * fl -> fl), ash W = Ok (n :: s) -> (forall i, aget W i = pr (aget X i, aget Y i, aget Z i)) ->
     listsF n s t (asqz W) (squeezed (n :: s)) (fun j t => pr (f j t))).
  { intros W pr SW HW. split; [unfold asqz; cbn [ash]; rewrite SW; reflexivity|]. intros i Hi.
    destruct (flat_squeezed W (n :: s) i SW Hi) as (i' & Ei & ->). destruct (inside_cons _ _ _ Hi) as [H0 H1].
    assert (E0 : i' O = i O) by (apply Ei; cbn; lia).
    rewrite HW, V, E0 by lia. f_equal. f_equal. apply (Wt _ Et). intros k Hk. apply Ei. cbn. destruct (le_lt_dec (length s) k) as [L|L]; [|lia].
    rewrite nth_overflow in Hk by exact L. contradiction. }
  split; [|split].
  - apply (G X (fun v => fst (fst v)) SX). reflexivity.
  - apply (G Y (fun v => snd (fst v)) SY). reflexivity.
  - apply (G Z (fun v => snd v) SZ). reflexivity.
Qed.

(** what in_transit does, as a function of the time alone *)
Definition masksF (A : orbit_api) (ld : bool) (n : nat) (r : tens) : Prop :=
  exists (ok : option fl -> bool) (E : option fl -> nat -> fl -> bool),
  (forall ev j t, undefined t -> E ev j t = false) /\
  forall N t texp, is_vector N t -> single texp -> (forall e, texp = Some e -> twf e) ->
    let ev := option_map (fun e : tens => aget e ix0) texp in
    oa_in_transit A t r texp ld = Ok (if ok ev then filter (fun m => existsb (fun j => E ev j (aget t (at_time m))) (seq 0 n)) (seq 0 N) else seq 0 N).

Section C.
Variables (l : limbdark) (A : orbit_api) (ld : bool) (n : nat) (P : nat -> fl -> fl * fl * fl) (rst : nat -> fl).
Hypothesis HA : answersF A ld n P.
Hypothesis Hrs : planetF n (oa_r_star A) rst.
Hypothesis HP : forall j t, (j < n)%nat -> undefined t -> flt (Fin 0) (fdiv (snd (P j t)) (rst j)) = false.
Variables (r : tens) (sr : shape) (use : option bool).
Hypothesis Sr : ash r = Ok sr.
Hypothesis Pr : prod sr = n.
Hypothesis Hm : masks use ld = true -> masksF A ld n (areshape (rmap (fun s => [prod s]) (ash r)) r).

(** the position of planets that do not exist does not matter *)
Let P' j t := if Nat.ltb j n then P j t else nan3.
Lemma HA' : answersF A ld n P'.
Proof.
  intros s t Es Wt. destruct (HA s t Es Wt) as (x & y & z & sh & Ep & Eprod & (Sx & Lx) & (Sy & Ly) & (Sz & Lz)).
  exists x, y, z, sh. split; [exact Ep|]. split; [exact Eprod|].
  assert (G : forall i, inside (n :: s) i -> Nat.ltb (i O) n = true) by (intros i Hi; apply Nat.ltb_lt; apply (Hi O); cbn; lia).
  split; [|split]; (split; [assumption|intros i Hi]); unfold P'; rewrite (G i Hi); auto.
Qed.
Lemma HP' : forall j t, undefined t -> flt (Fin 0) (fdiv (snd (P' j t)) (rst j)) = false.
Proof.
  intros j t H. unfold P'. destruct (Nat.ltb_spec j n); [apply HP; assumption|]. unfold nan3. cbn [snd]. rewrite divNl. reflexivity.
Qed.

Lemma skips_ok : skips_undefined n (fun e => masks use ld = true -> single e) (fun t e osam order => get_light_curve l (Some A) (Some r) (Some t) e osam order use ld).
Proof.
  intros N t e ev t' e' ev' osam order Ht Ht' He He' Hee Ha Ha' Ho Hor.
  destruct (stencil_exists osam order Ho Hor) as (nodes & weights & St).
  assert (Zr : forall N t e ev m j, exposure_values N e ev -> undefined (aget t (at_time m)) \/ undefined (ev m) ->
     rowF l P' rst r e nodes weights j (aget t (at_time m)) (ev m) = Fin 0).
  { intros N0 t0 e0 ev0 m j He0 H. apply row_zero; [apply HP'|]. destruct H as [H|H]; [left; exact H|]. destruct e0 as [a|]; [right; split; [discriminate|exact H]|].
    exfalso. apply (H 0). apply He0. }
  assert (Er : forall j a b, rowF l P' rst r e nodes weights j a b = rowF l P' rst r e' nodes weights j a b).
  { intros. unfold rowF. destruct Hee as [H1 H2]. destruct e, e'; try reflexivity; [discriminate (H2 eq_refl)|discriminate (H1 eq_refl)]. }
  unfold get_light_curve. fold (masks use ld). destruct (masks use ld) eqn:Eu.
  - destruct (Hm eq_refl) as (ok & E & _ & HE). specialize (Ha eq_refl). specialize (Ha' eq_refl).
    assert (We : forall N e ev, exposure_values N e ev -> forall a, e = Some a -> twf a) by (intros N0 e0 ev0 H a ->; apply H).
    assert (L1 := HE N t e Ht Ha (We _ _ _ He)). assert (L2 := HE N t' e' Ht' Ha' (We _ _ _ He')). cbv zeta in L1, L2.
    set (f := fun t e m => existsb (fun j => E (option_map (fun e : tens => aget e ix0) e) j (aget t (at_time m))) (seq 0 n)) in *.
    assert (B : forall (b : bool) g m, In m (if b then filter g (seq 0 N) else seq 0 N) <-> (m < N)%nat /\ (b = true -> g m = true)).
    { intros b g m. destruct b; [rewrite filter_In|]; rewrite in_seq.
      { split; [intros [H1 H2]; split; [lia|intros _; exact H2]|intros [H1 H2]; split; [lia|apply H2; reflexivity]]. }
      { split; [intros H1; split; [lia|discriminate]|intros [H1 _]; lia]. } }
    destruct (maskedF l A ld n P' rst HA' Hrs r sr Sr Pr N t e ev osam order nodes weights Ht He St Ha _ L1) as (X & EX & SX & VX); [intros m Hin; apply B in Hin; apply Hin|].
    destruct (maskedF l A ld n P' rst HA' Hrs r sr Sr Pr N t' e' ev' osam order nodes weights Ht' He' St Ha' _ L2) as (X' & EX' & SX' & VX'); [intros m Hin; apply B in Hin; apply Hin|].
    exists X, X'. split; [exact EX|]. split; [exact EX'|]. split; [exact SX|]. split; [exact SX'|]. intros m j Hm' Hj.
    destruct (VX m j Hm' Hj) as [V1 V2]. destruct (VX' m j Hm' Hj) as [V1' V2']. split.
    + intro U. match type of V1 with In m ?L -> _ => destruct (in_dec Nat.eq_dec m L) as [I1|I1] end; [rewrite (V1 I1); apply (Zr N); assumption|apply V2, I1].
    + intros Et Ee.
      assert (Eo : option_map (fun e : tens => aget e ix0) e = option_map (fun e : tens => aget e ix0) e').
      { destruct e as [a|], e' as [a'|]; try (destruct Hee as [H1 H2]; (discriminate (H1 eq_refl) || discriminate (H2 eq_refl))); [|reflexivity].
        cbn. f_equal. destruct He as [_ [[_ G]|[G _]]]; [|rewrite (Ha a eq_refl) in G; discriminate G].
        destruct He' as [_ [[_ G']|[G' _]]]; [|rewrite (Ha' a' eq_refl) in G'; discriminate G'].
        rewrite <- (G m), <- (G' m). exact Ee. }
      assert (Ef : f t e m = f t' e' m) by (unfold f; rewrite Eo, Et; reflexivity).
      assert (Ei : In m (if ok (option_map (fun e : tens => aget e ix0) e) then filter (f t e) (seq 0 N) else seq 0 N)
               <-> In m (if ok (option_map (fun e : tens => aget e ix0) e') then filter (f t' e') (seq 0 N) else seq 0 N)) by (rewrite !B, Ef, Eo; reflexivity).
      match type of V1 with In m ?L -> _ => destruct (in_dec Nat.eq_dec m L) as [I1|I1] end.
      * rewrite (V1 I1), (V1' (proj1 Ei I1)), Et, Ee. apply Er.
      * rewrite (V2 I1), V2'; [reflexivity|]. intro C. apply I1, Ei, C.
  - destruct (plainF l A ld n P' rst HA' Hrs r sr Sr Pr N t e ev osam order nodes weights Ht He St) as (X & EX & SX & VX).
    destruct (plainF l A ld n P' rst HA' Hrs r sr Sr Pr N t' e' ev' osam order nodes weights Ht' He' St) as (X' & EX' & SX' & VX').
    exists X, X'. split; [exact EX|]. split; [exact EX'|]. split; [exact SX|]. split; [exact SX'|]. intros m j Hm' Hj.
    rewrite (VX m j Hm' Hj), (VX' m j Hm' Hj). split; [intro U; apply (Zr N); assumption|]. intros Et Ee. rewrite Et, Ee. apply Er.
Qed.
End C.

(** ** KeplerianOrbit *)
Section K.
Variables (k : consts) (n : nat) (x : kargs tens) (o : orbit tens).
Hypothesis Hn : (0 < n)%nat.
Hypothesis Px : planet_args n x.
Hypothesis Hx : kep_init k x = Ok o.
Let og j := orbit_at (at_planet j) o.
Lemma og_at i : orbit_at i o = og (i O).
Proof.
  assert (E := planet_orbit k n x o Px Hx i). assert (E' := planet_orbit k n x o Px Hx (at_planet (i O))).
  change (at_planet (i O) O) with (i O) in E'. rewrite E in E'. apply Ok_inj in E'. exact E'.
Qed.
Definition kposF (ld : bool) (j : nat) (t : fl) : fl * fl * fl := get_position k (og j) (kep_warp (og j)) (- o_a (og j))%num t None ld true.
Lemma kepF cp ld : answersF (kep_api k cp o) ld n (kposF ld).
Proof.
  destruct (kep_init_sn n k x o Px Hx) as (So & Eno & Epo).
  intros s t Et Wt. cbn [oa_pos kep_api]. unfold get_relative_position.
  assert (Sa : Sn n (- o_a o)%num) by apply (Sn_map n fneg), (os_a _ _ So).
  assert (W1 : forall t0, ash t0 = Ok s -> T1S n s (kep_warp o true t0)).
  { intros t0 E. apply (T1S_map2l n s fsub); [apply padr_T1S; exact E|apply (os_t0 _ _ So)]. }
  assert (W0 : forall t0, ENS n s t0 -> ENS n s (kep_warp o false t0)).
  { intros t0 E. apply (ENS_map2l n s fsub); [exact E|apply (os_t0 _ _ So)]. }
  assert (Sh := pos_shapeS n s k o So Eno (kep_warp o) W1 W0 (- o_a o)%num t None ld Sa I Et _ eq_refl).
  assert (Va := fun i => get_position_at k i o (kep_warp o) (kep_warp (orbit_at i o)) (kep_warp_at1 o i) (kep_warp_at0 o i) (- o_a o)%num t None ld true).
  destruct (get_position k o (kep_warp o) (- o_a o)%num t None ld true) as [[X Y] Z]. cbn [fst snd] in Sh. destruct Sh as (SX & SY & SZ).
  exists (asqz X), (asqz Y), (asqz Z), (squeezed (n :: s)). split; [reflexivity|].
  apply (answersF_of n s t X Y Z (kposF ld) Et Wt SX SY SZ).
  intros i Hi. specialize (Va i). rewrite (og_at i) in Va. etransitivity; [exact Va|]. cbn [option_map]. unfold kposF.
  replace (aget (- o_a o)%num i) with (- o_a (og (i O)))%num; [reflexivity|]. rewrite <- (og_at i). reflexivity.
Qed.
Lemma kep_rst cp : planetF n (oa_r_star (kep_api k cp o)) (fun j => o_r_star (og j)).
Proof.
  destruct (kep_init_sn n k x o Px Hx) as (So & _). cbn [oa_r_star kep_api]. split; [destruct (os_r _ _ So) as [[E _]|[E _]]; [left|right]; exact E|].
  intros i Hi. assert (E := og_at i). apply (f_equal (fun o => o_r_star o)) in E. exact E.
Qed.
Lemma te_at_ix (texp : option tens) i : single texp -> (forall e, texp = Some e -> twf e) ->
  option_map (fun e : tens => aget e i) texp = option_map (fun e : tens => aget e ix0) texp.
Proof.
  intros H1 H2. destruct texp as [e|]; [|reflexivity]. cbn. f_equal. apply (H2 e eq_refl _ (H1 e eq_refl)). intros q Hq. destruct q; cbn in Hq; contradiction.
Qed.
Lemma te_sn' (texp : option tens) : single texp -> (forall e, texp = Some e -> twf e) -> OSn n texp.
Proof.
  intros H1 H2. destruct texp as [e|]; [|exact I]. left. split; [apply H1; reflexivity|]. intros i i'. apply (H2 e eq_refl _ (H1 e eq_refl)). intros q Hq. destruct q; cbn in Hq; contradiction.
Qed.
Lemma time_ix N (t : tens) j m : is_vector N t -> aget t (fun d => cons_ix j (cons_ix m ix0) (S d)) = aget t (at_time m).
Proof. intros [W E]. apply (W _ E). intros d Hd. destruct d as [|d]; [reflexivity|]. destruct d; cbn in Hd; contradiction. Qed.
Lemma flag_free (o' : orbit fl) w w' cp t t' r e e' : snd (transit_mask o' w cp t r e) = snd (transit_mask o' w' cp t' r e').
Proof. unfold transit_mask. destruct (transit_window o' cp r) as [[? ?] ?]. reflexivity. Qed.
Lemma kep_masks cp (r : tens) : Sn n r -> masksF (kep_api k (lift_cp cp) o) false n r.
Proof.
  intro Hr. destruct (kep_init_sn n k x o Px Hx) as (So & Eno & Epo).
  pose (en := fun ev t j => transit_mask (og j) (kep_warp (og j)) cp t (aget r (at_planet j)) ev).
  exists (fun ev => forallb (fun j => feq0 (snd (en ev NaN j))) (seq 0 n)), (fun ev j t => fst (en ev t j)).
  split; [intros ev j t U; apply maskU; [apply warpU|exact U]|].
  intros N t texp Ht H1 H2. cbv zeta. cbn [oa_in_transit kep_api].
  assert (Hw : T1 n N (kep_warp o true t)) by (apply (T1_map2l n N fsub); [apply padr_T1; apply Ht|apply (os_t0 _ _ So)]).
  assert (St := te_sn' texp H1 H2).
  destruct (Nat.eq_dec N 0) as [E|E].
  - rewrite (kin_nil n N o So Eno Epo (kep_warp o) t (proj2 Ht) Hw cp r texp Hr St E). subst N. destruct (forallb _ _); reflexivity.
  - rewrite (kin_list n N o So Eno Epo Hn (kep_warp o) t (proj2 Ht) Hw cp r texp Hr St
      (fun m j => en (option_map (fun e : tens => aget e ix0) texp) (aget t (at_time m)) j) (fun i => kep_warp (orbit_at i o))); [|intro i; apply kep_warp_at1| |lia].
    + unfold flags_ok, picked. f_equal. assert (Ef : forall j, snd (en (option_map (fun e : tens => aget e ix0) texp) (aget t (at_time 0)) j) = snd (en (option_map (fun e : tens => aget e ix0) texp) NaN j)) by (intro j; apply flag_free).
      replace (forallb (fun j => feq0 (snd (en (option_map (fun e : tens => aget e ix0) texp) (aget t (at_time 0)) j))) (seq 0 n))
        with (forallb (fun j => feq0 (snd (en (option_map (fun e : tens => aget e ix0) texp) NaN j))) (seq 0 n)); [reflexivity|].
      generalize (seq 0 n). induction l as [|j l0 IH]; [reflexivity|]. cbn [forallb]. rewrite IH, Ef. reflexivity.
    + intros m j Hm Hj i. unfold en. rewrite (og_at i). unfold i at 3. rewrite (time_ix N t j m Ht), (te_at_ix texp i H1 H2), (sn_at n r i Hr). reflexivity.
Qed.

Variables (l : limbdark) (r : tens) (sr : shape) (use : option bool) (ld : bool).
Hypothesis Sr : ash r = Ok sr.
Hypothesis Pr : prod sr = n.
Hypothesis Hu : masks use ld = true -> ld = false.
Lemma kepler_skips cp : skips_undefined n (fun e => masks use ld = true -> single e)
  (fun t e osam order => get_light_curve l (Some (kep_api k (lift_cp cp) o)) (Some r) (Some t) e osam order use ld).
Proof.
  apply (skips_ok l (kep_api k (lift_cp cp) o) ld n (kposF ld) (fun j => o_r_star (og j)) (kepF _ ld) (kep_rst _)) with (sr := sr); try assumption.
  - intros j t _ U. unfold kposF. rewrite (getposU k (og j) _ (warpU (og j))) by exact U. unfold nan3. cbn [snd]. rewrite divNl. reflexivity.
  - intro E. rewrite (Hu E). apply kep_masks. exact (rF_sn n r sr Sr Pr).
Qed.
End K.

(** ** Tables and in_transit *)
Section M.
Variables (k : consts) (n : nat) (x : kargs tens) (o : orbit tens).
Hypothesis Hn : (0 < n)%nat.
Hypothesis Px : planet_args n x.
Hypothesis Hx : kep_init k x = Ok o.
Variable F : tens -> tens * tens * tens.
Variable f : nat -> fl -> fl * fl * fl.
Hypothesis HF : forall N t, is_vector N t -> is_table3 n N (F t) (fun m j => f j (aget t (at_time m))).
Hypothesis Hf : forall j t, undefined t -> f j t = nan3.
Lemma rows3_of : nan_rows3 n F.
Proof.
  assert (G : forall p : fl * fl * fl -> fl, p nan3 = NaN -> forall q : tens * tens * tens -> tens,
     (forall N t, is_vector N t -> is_table n N (q (F t)) (fun m j => p (f j (aget t (at_time m))))) -> nan_rows n (fun t => q (F t))).
  { intros p Hp q Hq N t t' Ht Ht'. exists (fun m j => p (f j (aget t (at_time m)))), (fun m j => p (f j (aget t' (at_time m)))).
    split; [apply Hq, Ht|]. split; [apply Hq, Ht'|]. intros m j Hm Hj. split; [intro U; rewrite (Hf j _ U); exact Hp|intros ->; reflexivity]. }
  split; [|split].
  - apply (G (fun v => fst (fst v)) eq_refl (fun v => fst (fst v))). intros N t Ht. exact (proj1 (HF N t Ht)).
  - apply (G (fun v => snd (fst v)) eq_refl (fun v => snd (fst v))). intros N t Ht. exact (proj1 (proj2 (HF N t Ht))).
  - apply (G (fun v => snd v) eq_refl (fun v => snd v)). intros N t Ht. exact (proj2 (proj2 (HF N t Ht))).
Qed.
End M.
Section M2.
Variables (k : consts) (n : nat) (x : kargs tens) (o : orbit tens).
Hypothesis Px : planet_args n x.
Hypothesis Hx : kep_init k x = Ok o.
Let fo j := orbit_at (at_planet j) o.
Lemma fo_init j : kep_init k (args_at (at_planet j) x) = Ok (fo j).
Proof. exact (planet_orbit k n x o Px Hx (at_planet j)). Qed.
Lemma motion_rows par ld b : opt_per_planet n par ->
  nan_rows3 n (fun t => pos k o b t par ld) /\ nan_rows3 n (fun t => vel o b t) /\ nan_rows3 n (fun t => acc o b t) /\ nan_rows n (fun t => fst (get_relative_angles k o (kep_warp o) t par ld)) /\ nan_rows n (fun t => snd (get_relative_angles k o (kep_warp o) t par ld)).
Proof.
  intro Hp.
  split; [|split; [|split]].
  - apply (rows3_of n _ (fun j t => pos k (fo j) b t (opt_at_planet j par) ld)).
    + intros N t Ht. exact (pos_table k n N x o t Px Hx Ht fo (fun j _ => fo_init j) b par ld Hp).
    + intros j t U. apply (motionU k (fo j) t U).
  - apply (rows3_of n _ (fun j t => vel (fo j) b t)).
    + intros N t Ht. exact (vel_table k n N x o t Px Hx Ht fo (fun j _ => fo_init j) b).
    + intros j t U. apply (motionU k (fo j) t U).
  - apply (rows3_of n _ (fun j t => acc (fo j) b t)).
    + intros N t Ht. exact (acc_table k n N x o t Px Hx Ht fo (fun j _ => fo_init j) b).
    + intros j t U. apply (motionU k (fo j) t U).
  - assert (A : forall N t, is_vector N t ->
      is_table n N (fst (get_relative_angles k o (kep_warp o) t par ld)) (fun m j => fst (get_relative_angles k (fo j) (kep_warp (fo j)) (aget t (at_time m)) (opt_at_planet j par) ld)) /\
      is_table n N (snd (get_relative_angles k o (kep_warp o) t par ld)) (fun m j => snd (get_relative_angles k (fo j) (kep_warp (fo j)) (aget t (at_time m)) (opt_at_planet j par) ld))).
    { intros N t Ht. assert (T := angles_table k n N x o t Px Hx Ht fo (fun j _ => fo_init j) par ld Hp).
      destruct (get_relative_angles k o (kep_warp o) t par ld) as [rho th]. exact T. }
    split; intros N t t' Ht Ht'; destruct (A N t Ht) as [A1 A2]; destruct (A N t' Ht') as [B1 B2]; eexists _, _; (split; [eassumption|]); (split; [eassumption|]);
      intros m j Hm Hj; cbn beta; (split; [intro U|intros ->; reflexivity]); rewrite (proj1 (proj2 (proj2 (proj2 (motionU k (fo j) _ U))))); reflexivity.
Qed.
Lemma rv_rows K u N t t' X X' : opt_per_planet n K -> is_vector N t -> is_vector N t' ->
  get_radial_velocity k o (kep_warp o) t K u = Ok X -> get_radial_velocity k o (kep_warp o) t' K u = Ok X' ->
  exists f f', is_table n N X f /\ is_table n N X' f' /\ forall m j, (m < N)%nat -> (j < n)%nat ->
    (undefined (aget t (at_time m)) -> f m j = NaN) /\ (aget t (at_time m) = aget t' (at_time m) -> f m j = f' m j).
Proof.
  intros HK Ht Ht' H H'. destruct (rv_table k n N x o t Px Hx Ht fo (fun j _ => fo_init j) K u X HK H) as (f & T & V).
  destruct (rv_table k n N x o t' Px Hx Ht' fo (fun j _ => fo_init j) K u X' HK H') as (f' & T' & V').
  exists f, f'. split; [exact T|]. split; [exact T'|]. intros m j Hm Hj. split.
  - intro U. apply (proj2 (proj2 (proj2 (proj2 (motionU k (fo j) _ U)))) _ _ _ (V m j Hm Hj)).
  - intro E. specialize (V m j Hm Hj). specialize (V' m j Hm Hj). rewrite E in V. rewrite V in V'. injection V' as ->. reflexivity.
Qed.
End M2.
Lemma finds_of A n r : masksF A false n r -> finds_defined n true (fun t e => oa_in_transit A t r e false).
Proof.
  intros (ok & E & HU & HE) N t e ev Ht He H1. assert (We : forall a, e = Some a -> twf a) by (intros a ->; apply He).
  assert (L := HE N t e Ht H1 We). cbv zeta in L. eexists. split; [exact L|].
  destruct (ok _); [left|right; split; reflexivity]. intros m Hm. apply filter_In in Hm. destruct Hm as [Hm Hx]. apply in_seq in Hm. split; [lia|].
  intro U. apply existsb_exists in Hx. destruct Hx as (j & _ & Hx). rewrite (HU _ j _ U) in Hx. discriminate Hx.
Qed.
Lemma sn_of n a : per_planet n a -> Sn n a.
Proof. apply pp_sn. Qed.
Lemma kepler_finds k n x o cp r : (0 < n)%nat -> planet_args n x -> kep_init k x = Ok o -> per_planet n r ->
  finds_defined n true (fun t e => kep_in_transit o (kep_warp o) (lift_cp cp) t r e false).
Proof. intros Hn Px Hx Hr. exact (finds_of (kep_api k (lift_cp cp) o) n r (kep_masks k n x o Hn Px Hx cp r (pp_sn n r Hr))). Qed.
