(** * Model of src/exoplanet/citations.py:9-54 and of the places that register citations *)
From Coq Require Import String List Bool Arith.
From Verif Require Import Num M_kwargs M_citedata.
Import ListNotations.
Open Scope string_scope.

(** the attribute __citations__ of a model: absent, or a python dict in insertion order *)
Definition cites := list (string * entry).
(** PyMC models are numbered *)
Definition world := nat -> option cites.
Definition wset (w : world) (m : nat) (c : cites) : world := fun n => if Nat.eqb n m then Some c else w n.
(** [d[k] = v] on a dict: a known key keeps its place *)
Fixpoint oset (k : string) (v : entry) (d : cites) : cites :=
  match d with
  | [] => [(k, v)]
  | (k', v') :: d => if String.eqb k k' then (k', v) :: d else (k', v') :: oset k v d
  end.
(** [pm.modelcontext(model)]: the argument, else the innermost open model, else TypeError *)
Definition modelcontext (stack : list nat) (model : option nat) : res nat :=
  match model with
  | Some m => Ok m
  | None => match stack with m :: _ => Ok m | [] => Err TypeErr end
  end.
(** citations.py:14-15; an unknown key is a KeyError (here IndexErr) that leaves the
    earlier ones registered *)
Fixpoint add_all (ks : list string) (d : cites) : cites * res unit :=
  match ks with
  | [] => (d, Ok tt)
  | k :: ks => match lookup k CITATIONS with
               | None => (d, Err IndexErr)
               | Some v => add_all ks (oset k v d)
               end
  end.
(** citations.py:9-18 *)
Definition add_citations_to_model (w : world) (stack : list nat) (ks : list string) (model : option nat) : world * res unit :=
  match modelcontext stack model with
  | Err TypeErr => (w, Ok tt)                                                            (* 17-18 *)
  | Err e => (w, Err e)
  | Ok m => let d := match w m with Some d => d | None => [] end in                      (* 12-13 *)
            let '(d', r) := add_all ks d in (wset w m d', r)
  end.

(** ** components that register citations, with their explicit model argument *)
Inductive component := Keplerian | TTV | Simple | LimbDark | Secondary | Interpolated | QuadLimbDark | Kipping13 | VanEylen19.
(** What a constructor does before anything else: the keys of each call of
    add_citations_to_model.  KeplerianOrbit: keplerian.py:73,97, and TTVOrbit through it
    (ttv.py:142); SimpleTransitOrbit and InterpolatedLightCurve: none;
    LimbDarkLightCurve: limb_dark.py:39,42; SecondaryEclipseLightCurve builds two of
    them (secondary_eclipse.py:23-28); quad_limb_dark: distributions.py:85; kipping13:
    eccentricity.py:33-34; vaneylen19: eccentricity.py:157-158. *)
Definition registers (c : component) : list (list string) :=
  match c with
  | Keplerian | TTV => [["astropy"]]
  | Simple | Interpolated => []
  | LimbDark => [["starry"]]
  | Secondary => [["starry"]; ["starry"]]
  | QuadLimbDark => [["kipping13"]]
  | Kipping13 => [["kipping13b"]]
  | VanEylen19 => [["vaneylen19"]]
  end.
(** the last two call pm.modelcontext(model) before (and outside the try block) *)
Definition needs_context (c : component) : bool := match c with Kipping13 | VanEylen19 => true | _ => false end.
Fixpoint register_all (w : world) (stack : list nat) (kss : list (list string)) (model : option nat) : world * res unit :=
  match kss with
  | [] => (w, Ok tt)
  | ks :: kss => match add_citations_to_model w stack ks model with
                 | (w', Ok _) => register_all w' stack kss model
                 | (w', Err e) => (w', Err e)
                 end
  end.
(** the registration part of constructing a component *)
Definition construct (w : world) (stack : list nat) (c : component) (model : option nat) : world * res unit :=
  if needs_context c
  then match modelcontext stack model with
       | Err e => (w, Err e)
       | Ok m => register_all w stack (registers c) (Some m)
       end
  else register_all w stack (registers c) model.

(** ** histories: models are entered and left, components constructed, and citations
    added directly; exceptions are caught by the caller *)
Inductive event := Enter (m : nat) | Leave | Use (c : component) (model : option nat) | Add (ks : list string) (model : option nat).
Definition happen (s : world * list nat) (e : event) : world * list nat :=
  let '(w, stack) := s in
  match e with
  | Enter m => (w, m :: stack)
  | Leave => (w, tl stack)
  | Use c model => (fst (construct w stack c model), stack)
  | Add ks model => (fst (add_citations_to_model w stack ks model), stack)
  end.
Definition history (es : list event) (s : world * list nat) : world * list nat := fold_left happen es s.
Definition empty_world : world := fun _ => None.

(** ** the report *)
Definition join (sep : string) (l : list string) : string := String.concat sep l.
(** [sorted]: an insertion sort; python compares code points, all are ASCII here *)
Fixpoint sinsert (k : string) (l : list string) : list string :=
  match l with
  | [] => [k]
  | x :: l' => if String.leb k x then k :: l else x :: sinsert k l'
  end.
Definition ssort (l : list string) : list string := fold_right sinsert [] l.
Definition newline : string := "
".
(** citations.py:46-51 *)
Definition acknowledgement (keys : list string) : string :=
  "This research made use of \textsf{exoplanet} \citep{exoplanet:joss, exoplanet:zenodo} and its dependencies \citep{" ++ join ", " keys ++ "}.".
(** citations.py:21-54; [wrap] is textwrap.wrap *)
Definition get_citations_for_model (wrap : string -> nat -> list string) (using_pymc3 : bool)
    (w : world) (stack : list nat) (model : option nat) (width : nat) : res (string * string) :=
  m <- modelcontext stack model ;;                                                       (* 29 *)
  match w m with
  | None => Ok ("", "")                                                                  (* 30-32 *)
  | Some d =>
      let cite := e_keys cite_arviz in                                                   (* 34 *)
      let bib := [e_bib cite_exoplanet; e_bib cite_arviz] in                             (* 35-38 *)
      let cite := if using_pymc3 then (cite ++ e_keys cite_pymc3 ++ e_keys cite_theano)%list else cite in   (* 39-41 *)
      let bib := if using_pymc3 then (bib ++ [e_bib cite_pymc3; e_bib cite_theano])%list else bib in
      let cite := (cite ++ flat_map (fun kv => e_keys (snd kv)) d)%list in                      (* 42-44 *)
      let bib := (bib ++ map (fun kv => e_bib (snd kv)) d)%list in
      Ok (join newline (wrap (acknowledgement (ssort cite)) width), join newline bib)    (* 46-54 *)
  end.
