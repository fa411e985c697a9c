(** * Model of the warnings issued by the library

    src/exoplanet/utils.py:25-42, distributions/__init__.py:22-27,
    orbits/keplerian.py:99-108, 119-126, light_curves/limb_dark.py:41-68 and
    orbits/constants.py:15-37.  Python's module warnings is external: the filters
    are an argument, the registry of warnings already shown is the state.
    Simplified: filters do not change during a session; the order of the checks of
    argument types by Python itself is not modelled. *)
From Coq Require Import Reals List Bool Arith String.
From Verif Require Import Num CoreOps Inst M_units M_kepler M_kwargs M_tensor M_limbdark M_dist.
Import ListNotations.
Local Open Scope string_scope.

Inductive category := DeprecationWarning | UserWarning | RuntimeWarning.
(** a warning: category, text, module and line it is attributed to *)
Record warning := { w_category : category; w_text : string; w_module : string; w_line : nat }.
Definition category_eq_dec (a b : category) : {a = b} + {a <> b}.
Proof. decide equality. Defined.
Definition warning_eq_dec (a b : warning) : {a = b} + {a <> b}.
Proof. decide equality; first [apply Nat.eq_dec|apply string_dec|apply category_eq_dec]. Defined.
(** what a filter says: raise the warning as an exception, drop it, show it every
    time, show it the first time *)
Inductive action := AError | AIgnore | AAlways | ADefault.
Definition filters := warning -> action.
(** Python's filters unless changed: DeprecationWarning only if attributed to the
    user's script, everything else once per place *)
Definition python_filters : filters := fun w =>
  match w_category w with
  | DeprecationWarning => if String.eqb (w_module w) "__main__" then ADefault else AIgnore
  | _ => ADefault
  end.

(** the result of a call, or the warning raised *)
Inductive outcome (A : Type) := Done (r : res A) | Raised (w : warning).
Arguments Done {A} r.
Arguments Raised {A} w.
(** a computation: from the registry to the registry, the warnings shown and the
    outcome *)
Definition wcomp (A : Type) := list warning -> list warning * list warning * outcome A.
Definition lift {A} (r : res A) : wcomp A := fun s => (s, [], Done r).
Definition wbind {A C} (x : wcomp A) (f : A -> wcomp C) : wcomp C := fun s =>
  let '(s1, l, r) := x s in
  match r with
  | Done (Ok a) => let '(s2, l2, q) := f a s1 in (s2, (l ++ l2)%list, q)
  | Done (Err e) => (s1, l, Done (Err e))
  | Raised w => (s1, l, Raised w)
  end.
Notation "x <~ e ;; f" := (wbind e (fun x => f)) (at level 61, e at next level, right associativity).
(** [warnings.warn] *)
Definition warn (p : filters) (w : warning) : wcomp unit := fun s =>
  match p w with
  | AError => (s, [], Raised w)
  | AIgnore => (s, [], Done (Ok tt))
  | AAlways => (s, [w], Done (Ok tt))
  | ADefault => if in_dec warning_eq_dec w s then (s, [], Done (Ok tt)) else (w :: s, [w], Done (Ok tt))
  end.
(** utils.py:25-26: stacklevel=2, the place is where deprecation_warning is called *)
Definition deprecation_warning (p : filters) (msg module : string) (line : nat) : wcomp unit :=
  warn p {| w_category := DeprecationWarning; w_text := msg; w_module := module; w_line := line |}.

(** utils.py:29-42 *)
Definition deprecated {A} (p : filters) (name : string) (alternate : option string) (func : res A) : wcomp A :=
  let msg := "'" ++ name ++ "' is deprecated." ++
    match alternate with None => "" | Some a => " Use '" ++ a ++ "' instead." end in   (* 31-33 *)
  _ <~ deprecation_warning p msg "exoplanet.utils" 37 ;;           (* 37 *)
  lift func.                                                       (* 38 *)
(** distributions/__init__.py:22-24; func.__name__ is impact_parameter *)
Definition ImpactParameter (p : filters) (pymc3 : bool) (name : string) (ror : tens) (kw : dict) : wcomp (list stmt * (env -> tens)) :=
  deprecated p "impact_parameter" (Some "exoplanet.distributions.impact_parameter") (impact_parameter pymc3 name ror kw).
(** distributions/__init__.py:25-27 *)
Definition QuadLimbDark (p : filters) (pymc3 : bool) (name : string) (kw : dict) : wcomp (list stmt * (env -> tens)) :=
  deprecated p "quad_limb_dark" (Some "exoplanet.distributions.quad_limb_dark") (quad_limb_dark pymc3 name kw).

(** keplerian.py:99-103 and 104-108 *)
Definition unit_keyword {T} (p : filters) (name : string) (line : nat) (units : option unit_t) (value : option (qty T)) : wcomp unit :=
  match units with
  | None => lift (Ok tt)
  | Some u =>
      _ <~ deprecation_warning p ("'" ++ name ++ "' is deprecated; Use `with_unit` instead") "exoplanet.orbits.keplerian" line ;;
      lift (match value with None => Err TypeErr | Some q => rmap (fun _ => tt) (with_unit q u) end)
  end.
(** keplerian.py:113-126 *)
Definition duration_keyword {T} (p : filters) (x : kargs T) : wcomp unit :=
  match ka_ecc x, ka_duration x with
  | None, Some _ =>
      match ka_b x with
      | None => lift (Err ValueError)                              (* 116-120 *)
      | Some _ =>
          match ka_ror x with
          | Some _ => lift (Ok tt)
          | None => warn p {| w_category := UserWarning;           (* 121-126 *)
                              w_text := "When using the 'duration' parameter in KeplerianOrbit, the 'ror' parameter should also be provided.";
                              w_module := "exoplanet.orbits.keplerian"; w_line := 122 |}
          end
      end
  | _, _ => lift (Ok tt)
  end.
(** KeplerianOrbit.__init__, keplerian.py:75-283: the warnings and the errors
    before them, then the constructor *)
Definition KeplerianOrbit {T B} {N : Num T B} (p : filters) (k : consts) (x : kargs T) : wcomp (orbit T) :=
  _ <~ unit_keyword p "m_planet_units" 100 (ka_m_planet_units x) (ka_m_planet x) ;;
  _ <~ unit_keyword p "rho_star_units" 105 (ka_rho_star_units x) (ka_rho_star x) ;;
  _ <~ duration_keyword p x ;;
  lift (kep_init k x).
(** LimbDarkLightCurve.__init__, limb_dark.py:41-68 *)
Inductive coefficients := Both (u1 u2 : fl) | Vector (u : tens).
Definition LimbDarkLightCurve (p : filters) (u : coefficients) : wcomp limbdark :=
  match u with
  | Both u1 u2 => lift (Ok (ld_init u1 u2))                        (* 66-68 *)
  | Vector u =>
      _ <~ deprecation_warning p "using a vector of limb darkening coefficients is deprecated; use u1 and u2 directly" "exoplanet.light_curves.limb_dark" 44 ;;
      lift (ld_init_vector u)
  end.
(** constants.py:15-37: astropy's values, or the literals if they cannot be
    computed *)
Definition load_constants (p : filters) (astropy : res consts) : wcomp consts :=
  match astropy with
  | Ok k => lift (Ok k)
  | Err TypeErr =>
      _ <~ warn p {| w_category := RuntimeWarning; w_text := "Something went wrong when computing units. Check that AstroPy is working.";
                     w_module := "exoplanet.orbits.constants"; w_line := 27 |} ;;
      lift (Ok fallback_consts)
  | Err e => lift (Err e)
  end.

(** ** sessions *)
Inductive wcall :=
| CallOrbit (k : consts) (x : kargs tens)
| CallLimbDark (u : coefficients)
| CallImpact (pymc3 : bool) (name : string) (ror : tens) (kw : dict)
| CallQuad (pymc3 : bool) (name : string) (kw : dict).
Inductive wvalue := VOrbit (o : orbit tens) | VLimbDark (l : limbdark) | VStmts (r : list stmt * (env -> tens)).
Definition wmap {A C} (f : A -> C) (x : wcomp A) : wcomp C := a <~ x ;; lift (Ok (f a)).
Definition run_call (p : filters) (c : wcall) : wcomp wvalue :=
  match c with
  | CallOrbit k x => wmap VOrbit (KeplerianOrbit p k x)
  | CallLimbDark u => wmap VLimbDark (LimbDarkLightCurve p u)
  | CallImpact b name ror kw => wmap VStmts (ImpactParameter p b name ror kw)
  | CallQuad b name kw => wmap VStmts (QuadLimbDark p b name kw)
  end.
(** the calls one after the other; exceptions are caught by the user *)
Fixpoint session (p : filters) (cs : list wcall) (s : list warning) : list (list warning * outcome wvalue) :=
  match cs with
  | [] => []
  | c :: cs => let '(s, l, r) := run_call p c s in (l, r) :: session p cs s
  end.
