(** * Warnings *)
From Coq Require Import Reals List Bool Arith String Lia.
From Verif Require Import Num CoreOps Inst M_units M_kepler M_kwargs M_tensor M_limbdark M_dist M_warn Spec_warn Ex_orbit Ex_warn.
Import ListNotations.
Local Open Scope string_scope.
Local Notation length := List.length.

Lemma warn_cases p w s : (p w = AError /\ warn p w s = (s, [], Raised w)) \/ (p w <> AError /\ exists s' l, warn p w s = (s', l, Done (Ok tt)) /\ (l = [] \/ l = [w])).
Proof.
  unfold warn. destruct (p w) eqn:E; [left; auto|right..]; (split; [discriminate|]).
  - eauto 6.
  - eauto 6.
  - destruct (in_dec _ _ _); eauto 6.
Qed.
Lemma unit_kw_ok {T} p name line u (v : option (qty T)) s : (forall w, p w <> AError) ->
  exists s' l, unit_keyword p name line u v s = (s', l, Done (match u with None => Ok tt | Some u => match v with None => Err TypeErr | Some q => rmap (fun _ => tt) (with_unit q u) end end)).
Proof.
  intro NR. unfold unit_keyword. destruct u as [u|]; [|unfold lift; eauto]. unfold wbind, deprecation_warning.
  match goal with |- context [warn p ?w s] => destruct (warn_cases p w s) as [[E _]|(_ & s' & l & -> & _)]; [destruct (NR _ E)|] end. unfold lift. eauto.
Qed.
Definition units_result {T} (u : option unit_t) (v : option (qty T)) : res unit :=
  match u with None => Ok tt | Some u => match v with None => Err TypeErr | Some q => rmap (fun _ => tt) (with_unit q u) end end.
Definition dur_result {T} (x : kargs T) : res unit :=
  match ka_ecc x, ka_duration x, ka_b x with None, Some _, None => Err ValueError | _, _, _ => Ok tt end.
Lemma dur_kw_ok {T} p (x : kargs T) s : (forall w, p w <> AError) -> exists s' l, duration_keyword p x s = (s', l, Done (dur_result x)).
Proof.
  intro NR. unfold duration_keyword, dur_result. destruct (ka_ecc x); [unfold lift; eauto|]. destruct (ka_duration x); [|unfold lift; eauto]. destruct (ka_b x); [|unfold lift; eauto]. destruct (ka_ror x); [unfold lift; eauto|].
  match goal with |- context [warn p ?w s] => destruct (warn_cases p w s) as [[E _]|(_ & s' & l & -> & _)]; [destruct (NR _ E)|] end. eauto.
Qed.
(** the checks in front are those of the constructor *)
Lemma init_checks {T B} {N : Num T B} k (x : kargs T) : 
  (_ <- units_result (ka_m_planet_units x) (ka_m_planet x) ;; _ <- units_result (ka_rho_star_units x) (ka_rho_star x) ;; _ <- dur_result x ;; kep_init k x) = kep_init k x.
Proof.
  unfold kep_init, kep_units, units_result, dur_result, kep_duration.
  destruct (ka_m_planet_units x) as [u|]; [destruct (ka_m_planet x) as [q|]; [destruct (with_unit q u); cbn [rbind rmap]|]|]; cbn [rbind rmap]; try reflexivity;
  (destruct (ka_rho_star_units x) as [u'|]; [destruct (ka_rho_star x) as [q'|]; [destruct (with_unit q' u'); cbn [rbind rmap]|]|]; cbn [rbind rmap]; try reflexivity);
  (destruct (ka_ecc x); [reflexivity|]; destruct (ka_duration x); [|reflexivity]; destruct (ka_b x); reflexivity).
Qed.
Lemma init_passes {T B} {N : Num T B} k (x : kargs T) o : kep_init k x = Ok o -> units_result (ka_m_planet_units x) (ka_m_planet x) = Ok tt /\ units_result (ka_rho_star_units x) (ka_rho_star x) = Ok tt /\ dur_result x = Ok tt.
Proof.
  intro E. rewrite <- init_checks in E. destruct (units_result (ka_m_planet_units x) _) as [[]|]; [|discriminate]. destruct (units_result _ _) as [[]|]; [|discriminate]. destruct (dur_result x) as [[]|]; [|discriminate]. auto.
Qed.
Lemma orbit_done {T B} {N : Num T B} p k (x : kargs T) s : (forall w, p w <> AError) -> exists s' l, KeplerianOrbit p k x s = (s', l, Done (kep_init k x)).
Proof.
  intro NR. rewrite <- (init_checks k x). unfold KeplerianOrbit. unfold wbind at 1. destruct (unit_kw_ok p "m_planet_units" 100 (ka_m_planet_units x) (ka_m_planet x) s NR) as (s1 & l1 & ->). fold (units_result (ka_m_planet_units x) (ka_m_planet x)).
  destruct (units_result (ka_m_planet_units x) (ka_m_planet x)) as [[]|]; cbn [rbind]; [|eauto]. unfold wbind at 1. destruct (unit_kw_ok p "rho_star_units" 105 (ka_rho_star_units x) (ka_rho_star x) s1 NR) as (s2 & l2 & ->). fold (units_result (ka_rho_star_units x) (ka_rho_star x)).
  destruct (units_result (ka_rho_star_units x) (ka_rho_star x)) as [[]|]; cbn [rbind]; [|eauto]. unfold wbind. destruct (dur_kw_ok p x s2 NR) as (s3 & l3 & ->). destruct (dur_result x) as [[]|]; cbn [rbind]; unfold lift; eauto.
Qed.
Lemma wmap_done {A C} (f : A -> C) (x : wcomp A) s s' l r : x s = (s', l, Done r) -> exists s2 l2, wmap f x s = (s2, l2, Done (rmap f r)).
Proof. intro E. unfold wmap, wbind, lift. rewrite E. destruct r; cbn [rmap]; eauto. Qed.
Lemma depr_done {A} p name alt (r : res A) s : (forall w, p w <> AError) -> exists s' l, deprecated p name alt r s = (s', l, Done r).
Proof.
  intro NR. unfold deprecated, wbind, deprecation_warning. match goal with |- context [warn p ?w s] => destruct (warn_cases p w s) as [[E _]|(_ & s' & l & -> & _)]; [destruct (NR _ E)|] end. unfold lift. eauto.
Qed.
Theorem warn_result : forall p c s, never_raises p -> exists s' l, run_call p c s = (s', l, Done (plain_result c)).
Proof.
  intros p c s NR. destruct c as [k x|u|b name ror kw|b name kw]; cbn [run_call plain_result].
  - destruct (orbit_done p k x s NR) as (s' & l & E). exact (wmap_done VOrbit _ _ _ _ _ E).
  - destruct u as [u1 u2|u]; cbn [LimbDarkLightCurve].
    + unfold wmap, wbind, lift. eauto.
    + assert (exists s' l, (_ <~ deprecation_warning p "using a vector of limb darkening coefficients is deprecated; use u1 and u2 directly" "exoplanet.light_curves.limb_dark" 44 ;; lift (ld_init_vector u)) s = (s', l, Done (ld_init_vector u))) as (s' & l & E).
      { unfold wbind, deprecation_warning. match goal with |- context [warn p ?w s] => destruct (warn_cases p w s) as [[E _]|(_ & s' & l & -> & _)]; [destruct (NR _ E)|] end. unfold lift. eauto. }
      exact (wmap_done VLimbDark _ _ _ _ _ E).
  - destruct (depr_done p "impact_parameter" (Some "exoplanet.distributions.impact_parameter") (impact_parameter b name ror kw) s NR) as (s' & l & E). exact (wmap_done VStmts _ _ _ _ _ E).
  - destruct (depr_done p "quad_limb_dark" (Some "exoplanet.distributions.quad_limb_dark") (quad_limb_dark b name kw) s NR) as (s' & l & E). exact (wmap_done VStmts _ _ _ _ _ E).
Qed.

(** accepted orbits: the warnings one after the other *)
Fixpoint warn_all (p : filters) (ws : list warning) : wcomp unit :=
  match ws with [] => lift (Ok tt) | w :: ws => _ <~ warn p w ;; warn_all p ws end.
Lemma warn_all_app p a b s : warn_all p (a ++ b) s = (_ <~ warn_all p a ;; warn_all p b) s.
Proof.
  revert s. induction a as [|w a IH]; intro s; cbn [app warn_all].
  - unfold wbind, lift. destruct (warn_all p b s) as [[s' l] r]. reflexivity.
  - unfold wbind. destruct (warn p w s) as [[s1 l1] [[[]|e]|v]]; try reflexivity. rewrite IH. unfold wbind. destruct (warn_all p a s1) as [[s2 l2] [[[]|e]|v]]; try reflexivity. destruct (warn_all p b s2) as [[s3 l3] r]. rewrite app_assoc. reflexivity.
Qed.
Lemma unit_kw_all {T} p name line u (v : option (qty T)) s w : units_result u v = Ok tt -> 
  w = {| w_category := DeprecationWarning; w_text := "'" ++ name ++ "' is deprecated; Use `with_unit` instead"; w_module := "exoplanet.orbits.keplerian"; w_line := line |} ->
  unit_keyword p name line u v s = warn_all p (match u with Some _ => [w] | None => [] end) s.
Proof.
  intros H ->. unfold unit_keyword, units_result in *. destruct u as [u|]; [|reflexivity]. rewrite H. reflexivity.
Qed.
Lemma dur_kw_all {T} p (x : kargs T) s : dur_result x = Ok tt -> duration_keyword p x s = warn_all p (match ka_ecc x, ka_duration x, ka_ror x with None, Some _, None => [ror_warning] | _, _, _ => [] end) s.
Proof.
  unfold dur_result, duration_keyword. destruct (ka_ecc x); [reflexivity|]. destruct (ka_duration x); [|reflexivity]. destruct (ka_b x); [|discriminate]. intros _. destruct (ka_ror x); [reflexivity|]. cbn [warn_all]. unfold wbind, lift. fold ror_warning.
  destruct (warn p ror_warning s) as [[s1 l1] [[[]|e]|v]]; try reflexivity. rewrite app_nil_r. reflexivity.
Qed.
Lemma orbit_all {T B} {N : Num T B} p k (x : kargs T) o s : kep_init k x = Ok o -> KeplerianOrbit p k x s = (_ <~ warn_all p (orbit_warnings x) ;; lift (Ok o)) s.
Proof.
  intro E. destruct (init_passes k x o E) as (U1 & U2 & D). unfold KeplerianOrbit. rewrite E.
  assert (G : forall s, (_ <~ unit_keyword p "m_planet_units" 100 (ka_m_planet_units x) (ka_m_planet x) ;; _ <~ unit_keyword p "rho_star_units" 105 (ka_rho_star_units x) (ka_rho_star x) ;; duration_keyword p x) s = warn_all p (orbit_warnings x) s).
  { intro s0. unfold orbit_warnings. rewrite warn_all_app. unfold wbind at 1 3. erewrite unit_kw_all by (first [exact U1|reflexivity]). cbn [append]. destruct (warn_all p (match ka_m_planet_units x with Some _ => _ | None => _ end) s0) as [[s1 l1] [[[]|e]|v]]; try reflexivity.
    rewrite warn_all_app. unfold wbind at 1 2. erewrite unit_kw_all by (first [exact U2|reflexivity]). cbn [append]. destruct (warn_all p (match ka_rho_star_units x with Some _ => _ | None => _ end) s1) as [[s2 l2] [[[]|e]|v]]; try reflexivity. rewrite (dur_kw_all p x s2 D). reflexivity. }
  unfold wbind at 4. rewrite <- G. clear G. unfold wbind, lift.
  destruct (unit_keyword p "m_planet_units" 100 _ _ s) as [[s1 l1] [[[]|e]|v]]; try reflexivity. destruct (unit_keyword p "rho_star_units" 105 _ _ s1) as [[s2 l2] [[[]|e]|v]]; try reflexivity. destruct (duration_keyword p x s2) as [[s3 l3] [[[]|e]|v]]; try reflexivity. rewrite app_nil_r, !app_assoc, app_nil_r. reflexivity.
Qed.
Lemma warn_all_always ws s : warn_all always ws s = (s, ws, Done (Ok tt)).
Proof. revert s. induction ws as [|w ws IH]; intro s; [reflexivity|]. cbn [warn_all]. unfold wbind, warn, always at 1. rewrite IH. reflexivity. Qed.
Lemma warn_all_ok p ws s : (forall w, In w ws -> p w <> AError) -> exists s' l, warn_all p ws s = (s', l, Done (Ok tt)).
Proof.
  revert s. induction ws as [|w ws IH]; intros s H; [unfold warn_all, lift; eauto|]. cbn [warn_all]. unfold wbind. destruct (warn_cases p w s) as [[E _]|(_ & s' & l & -> & _)]; [destruct (H w (or_introl eq_refl) E)|]. destruct (IH s') as (s2 & l2 & ->); [intros; apply H; right; assumption|]. eauto.
Qed.
Theorem orbit_shown : forall {T B} {N : Num T B} k (x : kargs T) o, kep_init k x = Ok o ->
  (forall s, KeplerianOrbit always k x s = (s, orbit_warnings x, Done (Ok o))) /\
  (forall p s, (forall w, In w (orbit_warnings x) -> p w <> AError) -> exists s' l, KeplerianOrbit p k x s = (s', l, Done (Ok o))) /\
  (forall p s l1 w l2, orbit_warnings x = (l1 ++ w :: l2)%list -> (forall v, In v l1 -> p v <> AError) -> p w = AError -> exists s' l, KeplerianOrbit p k x s = (s', l, Raised w)).
Proof.
  intros T B N k x o E. split; [|split].
  - intro s. rewrite (orbit_all _ k x o s E). unfold wbind. rewrite warn_all_always. unfold lift. rewrite app_nil_r. reflexivity.
  - intros p s H. rewrite (orbit_all _ k x o s E). unfold wbind. destruct (warn_all_ok p _ s H) as (s' & l & ->). unfold lift. eauto.
  - intros p s l1 w l2 L H1 H2. rewrite (orbit_all _ k x o s E), L. unfold wbind. rewrite warn_all_app. unfold wbind. destruct (warn_all_ok p l1 s H1) as (s' & l & ->). cbn [warn_all]. unfold wbind, warn. rewrite H2. eauto.
Qed.
Theorem orbit_rejected : forall {T B} {N : Num T B} p k (x : kargs T) e s, kep_init k x = Err e -> 
  exists s' l, KeplerianOrbit p k x s = (s', l, Done (Err e)) \/ exists w, KeplerianOrbit p k x s = (s', l, Raised w) /\ p w = AError.
Proof.
  intros T B N p k x e s E. rewrite <- (init_checks k x) in E. 
  assert (UK : forall name line u (v : option (qty T)) s, exists s' l, unit_keyword p name line u v s = (s', l, Done (units_result u v)) \/ exists w, unit_keyword p name line u v s = (s', l, Raised w) /\ p w = AError).
  { intros name line u v s0. unfold unit_keyword, units_result. destruct u as [u|]; [|exists s0, []; left; reflexivity]. unfold wbind, deprecation_warning.
    match goal with |- context [warn p ?w s0] => destruct (warn_cases p w s0) as [[Q ->]|(_ & s' & l & -> & _)] end; [exists s0, []; right; eauto|]. unfold lift. exists s', (l ++ [])%list. left. reflexivity. }
  assert (DK : forall s, exists s' l, duration_keyword p x s = (s', l, Done (dur_result x)) \/ exists w, duration_keyword p x s = (s', l, Raised w) /\ p w = AError).
  { intro s0. unfold duration_keyword, dur_result, lift. destruct (ka_ecc x); [exists s0, []; left; reflexivity|]. destruct (ka_duration x); [|exists s0, []; left; reflexivity]. destruct (ka_b x); [|exists s0, []; left; reflexivity]. destruct (ka_ror x); [exists s0, []; left; reflexivity|].
    match goal with |- context [warn p ?w s0] => destruct (warn_cases p w s0) as [[Q ->]|(_ & s' & l & -> & _)] end; [exists s0, []; right; eauto|]. exists s', l. left. reflexivity. }
  enough (G : exists s' l r, KeplerianOrbit p k x s = (s', l, r) /\ (r = Done (Err e) \/ exists w, r = Raised w /\ p w = AError)).
  { destruct G as (s' & l & r & G & [->|(w & -> & Q)]); exists s', l; [left; exact G|right; exists w; split; [exact G|exact Q]]. }
  unfold KeplerianOrbit. unfold wbind at 1. destruct (UK "m_planet_units" 100%nat (ka_m_planet_units x) (ka_m_planet x) s) as (s1 & l1 & [->|(w & -> & Q)]); [|eexists _, _, _; split; [reflexivity|right; eauto]].
  destruct (units_result (ka_m_planet_units x) _) as [[]|e1]; cbn [rbind] in E; [|injection E as <-; eexists _, _, _; split; [reflexivity|left; reflexivity]].
  unfold wbind at 1. destruct (UK "rho_star_units" 105%nat (ka_rho_star_units x) (ka_rho_star x) s1) as (s2 & l2 & [->|(w & -> & Q)]); [|eexists _, _, _; split; [reflexivity|right; eauto]].
  destruct (units_result (ka_rho_star_units x) _) as [[]|e1]; cbn [rbind] in E; [|injection E as <-; eexists _, _, _; split; [reflexivity|left; reflexivity]].
  unfold wbind. destruct (DK s2) as (s3 & l3 & [->|(w & -> & Q)]); [|eexists _, _, _; split; [reflexivity|right; eauto]].
  destruct (dur_result x) as [[]|e1]; cbn [rbind] in E; [|injection E as <-; eexists _, _, _; split; [reflexivity|left; reflexivity]]. unfold lift. rewrite E. eexists _, _, _. split; [reflexivity|left; reflexivity].
Qed.
Lemma warnings_of_flip {T B} {N : Num T B} (o : orbit T) r : orbit_warnings (flip_args o r) = [].
Proof. unfold orbit_warnings, flip_args. destruct (o_ecc o); reflexivity. Qed.

(** ** sessions with Python's filters *)
Definition issues (c : wcall) : bool :=
  match c with
  | CallOrbit _ x =>
      match units_result (ka_m_planet_units x) (ka_m_planet x), units_result (ka_rho_star_units x) (ka_rho_star x) with
      | Ok _, Ok _ => match ka_ecc x, ka_duration x, ka_b x, ka_ror x with None, Some _, Some _, None => true | _, _, _, _ => false end
      | _, _ => false
      end
  | _ => false
  end.
Definition after (c : wcall) (s : list warning) : list warning * list warning :=
  if issues c then if in_dec warning_eq_dec ror_warning s then (s, []) else (ror_warning :: s, [ror_warning]) else (s, []).
Lemma py_dep msg m line s : String.eqb m "__main__" = false -> deprecation_warning python_filters msg m line s = (s, [], Done (Ok tt)).
Proof. intro E. unfold deprecation_warning, warn, python_filters. cbn [w_category w_module]. rewrite E. reflexivity. Qed.
Lemma py_unit {T} name line u (v : option (qty T)) s : unit_keyword python_filters name line u v s = (s, [], Done (units_result u v)).
Proof. unfold unit_keyword, units_result. destruct u as [u|]; [|reflexivity]. unfold wbind. rewrite py_dep by reflexivity. reflexivity. Qed.
Lemma py_call c s : run_call python_filters c s = (fst (after c s), snd (after c s), Done (plain_result c)).
Proof.
  destruct c as [k x|u|b name ror kw|b name kw]; cbn [run_call plain_result].
  - unfold after. cbn [issues]. assert (I := init_checks k x). unfold wmap, KeplerianOrbit. unfold wbind at 1 2. rewrite py_unit. destruct (units_result (ka_m_planet_units x) (ka_m_planet x)) as [[]|e]; [|cbn [rbind] in I; rewrite <- I; reflexivity].
    unfold wbind at 1. rewrite py_unit. destruct (units_result (ka_rho_star_units x) (ka_rho_star x)) as [[]|e]; [|cbn [rbind] in I; rewrite <- I; reflexivity]. cbn [rbind] in I. unfold wbind. unfold dur_result in I. unfold duration_keyword.
    destruct (ka_ecc x); [unfold lift; destruct (kep_init k x); reflexivity|]. destruct (ka_duration x); [|unfold lift; destruct (kep_init k x); reflexivity]. destruct (ka_b x); [|cbn [rbind] in I; rewrite <- I; reflexivity]. destruct (ka_ror x); [unfold lift; destruct (kep_init k x); reflexivity|].
    fold ror_warning. unfold warn. change (python_filters ror_warning) with ADefault. cbv beta iota. destruct (in_dec warning_eq_dec ror_warning s); unfold lift; destruct (kep_init k x); reflexivity.
  - destruct u as [u1 u2|u]; [reflexivity|]. cbn [LimbDarkLightCurve after issues]. unfold wmap, wbind. rewrite py_dep by reflexivity. unfold lift. destruct (ld_init_vector u); reflexivity.
  - unfold ImpactParameter, deprecated, wmap, wbind. rewrite py_dep by reflexivity. unfold lift. destruct (impact_parameter b name ror kw); reflexivity.
  - unfold QuadLimbDark, deprecated, wmap, wbind. rewrite py_dep by reflexivity. unfold lift. destruct (quad_limb_dark b name kw); reflexivity.
Qed.
Lemma session_eq cs : forall s, session python_filters cs s = match cs with [] => [] | c :: cs => (snd (after c s), Done (plain_result c)) :: session python_filters cs (fst (after c s)) end.
Proof. intro s. destruct cs as [|c cs]; [reflexivity|]. cbn [session]. rewrite py_call. reflexivity. Qed.
Lemma session_known cs : forall i s, In ror_warning s -> shown_at (session python_filters cs s) i = [].
Proof.
  induction cs as [|c cs IH]; intros i s H; rewrite session_eq; [destruct i; reflexivity|]. assert (A : after c s = (s, [])). { unfold after. destruct (issues c); [|reflexivity]. destruct (in_dec _ _ _); [reflexivity|contradiction]. }
  rewrite A. cbn [fst snd]. destruct i as [|i]; [reflexivity|]. apply (IH i s H).
Qed.
Lemma session_shown cs : forall i s, ~ In ror_warning s -> (i < length cs)%nat ->
  shown_at (session python_filters cs s) i = if issues (nth i cs (CallLimbDark (Both NaN NaN))) && negb (existsb issues (firstn i cs)) then [ror_warning] else [].
Proof.
  induction cs as [|c cs IH]; intros i s H Hi; [cbn in Hi; lia|]. rewrite session_eq. destruct i as [|i].
  - cbn [nth firstn existsb negb andb shown_at fst]. unfold shown_at. cbn [nth fst]. unfold after. destruct (issues c); [|reflexivity]. destruct (in_dec _ _ _); [contradiction|reflexivity].
  - unfold shown_at. cbn [nth firstn existsb]. fold (shown_at (session python_filters cs (fst (after c s))) i). unfold after. destruct (issues c) eqn:EI; cbn [fst].
    + destruct (in_dec _ _ _); [contradiction|]. cbn [fst]. rewrite session_known by (left; reflexivity). cbn [orb negb]. rewrite andb_false_r. reflexivity.
    + cbn [orb]. apply IH; [exact H|cbn in Hi; lia].
Qed.
Lemma session_results cs : forall s, map snd (session python_filters cs s) = map (fun c => Done (plain_result c)) cs.
Proof. induction cs as [|c cs IH]; intro s; rewrite session_eq; [reflexivity|]. cbn [map snd]. rewrite IH. reflexivity. Qed.
Lemma issues_lacks c : issues c = true -> lacks_ror c.
Proof.
  destruct c as [k x| | |]; cbn; try discriminate. destruct (units_result _ _); [|discriminate]. destruct (units_result _ _); [|discriminate]. destruct (ka_ecc x); [discriminate|]. destruct (ka_duration x); [|discriminate]. destruct (ka_b x); [|discriminate]. destruct (ka_ror x); [discriminate|]. intros _. split; [reflexivity|]. split; [discriminate|reflexivity].
Qed.
Lemma lacks_issues c : accepted c -> lacks_ror c -> issues c = true.
Proof.
  intros [v E] H. destruct c as [k x| | |]; cbn in *; try contradiction. destruct H as (H1 & H2 & H3). destruct (kep_init k x) as [o|] eqn:K; [|discriminate]. destruct (init_passes k x o K) as (-> & -> & D). unfold dur_result in D. rewrite H1, H3 in *. destruct (ka_duration x); [|contradiction]. destruct (ka_b x); [reflexivity|discriminate].
Qed.
Theorem warn_session : forall cs i c, nth_error cs i = Some c ->
  let out := session python_filters cs [] in
  nth_error (map snd out) i = Some (Done (plain_result c)) /\
  (shown_at out i = [] \/ shown_at out i = [ror_warning]) /\
  (shown_at out i <> [] -> lacks_ror c) /\
  (accepted c -> lacks_ror c -> (forall d, In d (firstn i cs) -> ~ lacks_ror d) -> shown_at out i = [ror_warning]) /\
  (forall d, In d (firstn i cs) -> accepted d -> lacks_ror d -> shown_at out i = []).
Proof.
  intros cs i c E out. assert (Hi : (i < length cs)%nat) by (apply nth_error_Some; congruence).
  assert (SH := session_shown cs i [] (fun F : In _ [] => F) Hi). fold out in SH. assert (N : nth i cs (CallLimbDark (Both NaN NaN)) = c) by (apply nth_error_nth; exact E). rewrite N in SH.
  split; [unfold out; rewrite session_results; rewrite nth_error_map, E; reflexivity|]. split; [rewrite SH; destruct (_ && _); auto|]. split; [|split].
  - rewrite SH. destruct (issues c) eqn:I; [intros _; apply issues_lacks, I|]. intro F. exfalso. apply F. reflexivity.
  - intros A L H. rewrite SH, (lacks_issues c A L). destruct (existsb issues (firstn i cs)) eqn:X; [|reflexivity]. apply existsb_exists in X. destruct X as (d & ID & X). destruct (H d ID). apply issues_lacks, X.
  - intros d ID A L. rewrite SH. assert (X : existsb issues (firstn i cs) = true) by (apply existsb_exists; exists d; split; [exact ID|apply lacks_issues; assumption]). rewrite X, andb_false_r. reflexivity.
Qed.
Theorem alias_shown : forall b name ror kw s,
  (exists w, ImpactParameter always b name ror kw s = (s, [w], Done (impact_parameter b name ror kw)) /\ w_category w = DeprecationWarning /\ mentions "exoplanet.distributions.impact_parameter" (w_text w)) /\
  (exists w, QuadLimbDark always b name kw s = (s, [w], Done (quad_limb_dark b name kw)) /\ w_category w = DeprecationWarning /\ mentions "exoplanet.distributions.quad_limb_dark" (w_text w)).
Proof.
  intros. split; eexists; (split; [reflexivity|]); (split; [reflexivity|]); cbn; discriminate.
Qed.
Theorem alias_unnamed : forall b name ror kw s,
  (exists w, snd (fst (ImpactParameter always b name ror kw s)) = [w] /\ ~ mentions "ImpactParameter" (w_text w)) /\
  (exists w, snd (fst (QuadLimbDark always b name kw s)) = [w] /\ ~ mentions "QuadLimbDark" (w_text w)).
Proof. intros. split; eexists; (split; [reflexivity|]); unfold mentions; cbn; intro H; apply H; reflexivity. Qed.
Theorem constants_loaded : forall p s,
  (forall k, load_constants p (Ok k) s = (s, [], Done (Ok k))) /\
  (forall e, e <> TypeErr -> load_constants p (Err e) s = (s, [], Done (Err e))) /\
  (exists w, w_category w = RuntimeWarning /\ (forall q s, load_constants q (Err TypeErr) s = (_ <~ warn q w ;; lift (Ok fallback_consts)) s)).
Proof.
  intros p s. split; [reflexivity|]. split; [intros e N; destruct e; try reflexivity; contradiction|]. eexists. split; [|reflexivity]. reflexivity.
Qed.
Theorem flip_silent : forall {T B} {N : Num T B} p k (o : orbit T) r s, KeplerianOrbit p k (flip_args o r) s = (s, [], Done (flip k o r)).
Proof.
  intros. unfold KeplerianOrbit, unit_keyword, duration_keyword, flip. unfold flip_args at 1 2 3 4 5 6 7. destruct (o_ecc o); cbn [ka_m_planet_units ka_rho_star_units ka_ecc ka_duration]; reflexivity.
Qed.
Theorem hidden_warning : exists k x o, kep_init k x = Ok o /\ ka_m_planet_units x <> None /\ orbit_warnings x <> [] /\ shown_at (session python_filters [CallOrbit k x] []) 0 = [].
Proof. exists ek, wy. eexists. split; [reflexivity|]. split; [discriminate|]. split; [discriminate|reflexivity]. Qed.
