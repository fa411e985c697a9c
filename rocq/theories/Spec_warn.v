(** * Specification vocabulary for warnings *)
From Coq Require Import Reals List Bool Arith String.
From Verif Require Import Num CoreOps Inst M_units M_kepler M_kwargs M_tensor M_limbdark M_dist M_warn.
Import ListNotations.
Local Open Scope string_scope.

(** the warnings an accepted call gives rise to, in order *)
Definition orbit_warnings {T} (x : kargs T) : list warning :=
  ((match ka_m_planet_units x with
   | Some _ => [{| w_category := DeprecationWarning; w_text := "'m_planet_units' is deprecated; Use `with_unit` instead"; w_module := "exoplanet.orbits.keplerian"; w_line := 100 |}]
   | None => [] end) ++
  (match ka_rho_star_units x with
   | Some _ => [{| w_category := DeprecationWarning; w_text := "'rho_star_units' is deprecated; Use `with_unit` instead"; w_module := "exoplanet.orbits.keplerian"; w_line := 105 |}]
   | None => [] end) ++
  (match ka_ecc x, ka_duration x, ka_ror x with
   | None, Some _, None => [{| w_category := UserWarning; w_text := "When using the 'duration' parameter in KeplerianOrbit, the 'ror' parameter should also be provided."; w_module := "exoplanet.orbits.keplerian"; w_line := 122 |}]
   | _, _, _ => [] end))%list.
(** the result of the call where no warning is turned into an exception *)
Definition plain_result (c : wcall) : res wvalue :=
  match c with
  | CallOrbit k x => rmap VOrbit (kep_init k x)
  | CallLimbDark (Both u1 u2) => Ok (VLimbDark (ld_init u1 u2))
  | CallLimbDark (Vector u) => rmap VLimbDark (ld_init_vector u)
  | CallImpact b name ror kw => rmap VStmts (impact_parameter b name ror kw)
  | CallQuad b name kw => rmap VStmts (quad_limb_dark b name kw)
  end.
(** the warnings turned into exceptions *)
Definition never_raises (p : filters) : Prop := forall w, p w <> AError.
Definition always (w : warning) : action := AAlways.
Definition strict (w : warning) : action := AError.
(** an orbit given by a duration without the radius ratio *)
Definition lacks_ror (c : wcall) : Prop :=
  match c with CallOrbit _ x => ka_ecc x = None /\ ka_duration x <> None /\ ka_ror x = None | _ => False end.
(** the warning about it *)
Definition ror_warning : warning := {| w_category := UserWarning; w_text := "When using the 'duration' parameter in KeplerianOrbit, the 'ror' parameter should also be provided."; w_module := "exoplanet.orbits.keplerian"; w_line := 122 |}.
Definition accepted (c : wcall) : Prop := exists v, plain_result c = Ok v.
(** the word occurs in the text *)
Definition mentions (word text : string) : Prop := index 0 word text <> None.
(** shown at the i-th call of a session *)
Definition shown_at (out : list (list warning * outcome wvalue)) (i : nat) : list warning := fst (nth i out ([], Done (Err OutOfFuel))).
