(** * C84: warnings *)
From Coq Require Import Reals List Bool Arith String.
From Verif Require Import Num CoreOps Inst M_units M_kepler M_kwargs M_tensor M_limbdark M_dist M_warn Spec_warn L_warn Ex_orbit Ex_warn.
Import ListNotations.
Local Open Scope string_scope.

(** C84: unless a filter turns warnings into exceptions, every call returns what it
    returns without them; the deprecated aliases are the functions they stand for *)
Theorem C84_result : forall p c s, never_raises p -> exists s' l, run_call p c s = (s', l, Done (plain_result c)).
Proof. exact warn_result. Qed.
Print Assumptions C84_result.
(** an accepted KeplerianOrbit issues exactly the warnings listed, in this order; the
    first that is turned into an exception is raised *)
Theorem C84_orbit : forall {T B} {N : Num T B} k (x : kargs T) o, kep_init k x = Ok o ->
  (forall s, KeplerianOrbit always k x s = (s, orbit_warnings x, Done (Ok o))) /\
  (forall p s, (forall w, In w (orbit_warnings x) -> p w <> AError) -> exists s' l, KeplerianOrbit p k x s = (s', l, Done (Ok o))) /\
  (forall p s l1 w l2, orbit_warnings x = (l1 ++ w :: l2)%list -> (forall v, In v l1 -> p v <> AError) -> p w = AError -> exists s' l, KeplerianOrbit p k x s = (s', l, Raised w)).
Proof. exact (@orbit_shown). Qed.
Print Assumptions C84_orbit.
(** a rejected one raises its error, or a warning on the way to it *)
Theorem C84_rejected : forall {T B} {N : Num T B} p k (x : kargs T) e s, kep_init k x = Err e -> 
  exists s' l, KeplerianOrbit p k x s = (s', l, Done (Err e)) \/ exists w, KeplerianOrbit p k x s = (s', l, Raised w) /\ p w = AError.
Proof. exact (@orbit_rejected). Qed.
Print Assumptions C84_rejected.
(** the orbit built for a secondary eclipse never warns *)
Theorem C84_flip : forall {T B} {N : Num T B} p k (o : orbit T) r s, KeplerianOrbit p k (flip_args o r) s = (s, [], Done (flip k o r)).
Proof. exact (@flip_silent). Qed.
Print Assumptions C84_flip.
(** a session with Python's own filters: no exception by a warning, and nothing shown
    except once the warning about a duration without a radius ratio *)
Theorem C84_session : forall cs i c, nth_error cs i = Some c ->
  let out := session python_filters cs [] in
  nth_error (map snd out) i = Some (Done (plain_result c)) /\
  (shown_at out i = [] \/ shown_at out i = [ror_warning]) /\
  (shown_at out i <> [] -> lacks_ror c) /\
  (accepted c -> lacks_ror c -> (forall d, In d (firstn i cs) -> ~ lacks_ror d) -> shown_at out i = [ror_warning]) /\
  (forall d, In d (firstn i cs) -> accepted d -> lacks_ror d -> shown_at out i = []).
Proof. exact warn_session. Qed.
Print Assumptions C84_session.
(** the aliases say what to use instead *)
Theorem C84_alias : forall b name ror kw s,
  (exists w, ImpactParameter always b name ror kw s = (s, [w], Done (impact_parameter b name ror kw)) /\ w_category w = DeprecationWarning /\ mentions "exoplanet.distributions.impact_parameter" (w_text w)) /\
  (exists w, QuadLimbDark always b name kw s = (s, [w], Done (quad_limb_dark b name kw)) /\ w_category w = DeprecationWarning /\ mentions "exoplanet.distributions.quad_limb_dark" (w_text w)).
Proof. exact alias_shown. Qed.
Print Assumptions C84_alias.
(** but do not name what is deprecated: the text calls the replacement deprecated *)
Theorem C84_alias_name_refuted : forall b name ror kw s,
  (exists w, snd (fst (ImpactParameter always b name ror kw s)) = [w] /\ ~ mentions "ImpactParameter" (w_text w)) /\
  (exists w, snd (fst (QuadLimbDark always b name kw s)) = [w] /\ ~ mentions "QuadLimbDark" (w_text w)).
Proof. exact alias_unnamed. Qed.
Print Assumptions C84_alias_name_refuted.
(** nor does a script see them unless the filters are changed: they are attributed to
    the library *)
Theorem C84_visible_refuted : exists k x o, kep_init k x = Ok o /\ ka_m_planet_units x <> None /\ orbit_warnings x <> [] /\ shown_at (session python_filters [CallOrbit k x] []) 0 = [].
Proof. exact hidden_warning. Qed.
Print Assumptions C84_visible_refuted.
(** the constants: astropy's, or the literals with a warning *)
Theorem C84_constants : forall p s,
  (forall k, load_constants p (Ok k) s = (s, [], Done (Ok k))) /\
  (forall e, e <> TypeErr -> load_constants p (Err e) s = (s, [], Done (Err e))) /\
  (exists w, w_category w = RuntimeWarning /\ (forall q s, load_constants q (Err TypeErr) s = (_ <~ warn q w ;; lift (Ok fallback_consts)) s)).
Proof. exact constants_loaded. Qed.
Print Assumptions C84_constants.

Example C84_case : accepted (CallOrbit ek wx) /\ lacks_ror (CallOrbit ek wx) /\ never_raises python_filters /\ 
  map (@fst _ _) (session python_filters [CallLimbDark (Vector (avec [(1 / 2)%R; 0%R])); CallOrbit ek wx; CallOrbit ek wx] []) = [[]; [ror_warning]; []].
Proof.
  split; [eexists; reflexivity|]. split; [split; [reflexivity|split; [discriminate|reflexivity]]|]. split; [|reflexivity].
  intro w. unfold python_filters. destruct (w_category w); [destruct (String.eqb _ _)|..]; discriminate.
Qed.
