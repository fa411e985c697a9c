(** * Specification vocabulary for citations *)
From Coq Require Import String List Bool Arith Permutation Sorted.
From Verif Require Import Num M_kwargs M_citedata M_cite.
Import ListNotations.
Open Scope string_scope.

(** the component of CITATIONS that a class or function of the package rests on *)
Definition rests_on (c : component) : list string :=
  match c with
  | Keplerian | TTV => ["astropy"]
  | LimbDark | Secondary => ["starry"]
  | QuadLimbDark => ["kipping13"]
  | Kipping13 => ["kipping13b"]
  | VanEylen19 => ["vaneylen19"]
  | Simple | Interpolated => []
  end.
(** the model an event belongs to: the one given, else the innermost open one *)
Definition belongs (stack : list nat) (model : option nat) (m : nat) : bool :=
  match model, stack with
  | Some n, _ | None, n :: _ => Nat.eqb n m
  | None, [] => false
  end.
Fixpoint known_prefix (ks : list string) : list string :=
  match ks with
  | [] => []
  | k :: ks => match lookup k CITATIONS with Some _ => k :: known_prefix ks | None => [] end
  end.
(** the registrations that reach model m, in order *)
Fixpoint registrations (stack : list nat) (es : list event) (m : nat) : list (list string) :=
  match es with
  | [] => []
  | Enter n :: es => registrations (n :: stack) es m
  | Leave :: es => registrations (tl stack) es m
  | Use c model :: es => match rests_on c with
                         | [] => []
                         | ks => if belongs stack model m then [ks] else []
                         end ++ registrations stack es m
  | Add ks model :: es => (if belongs stack model m then [known_prefix ks] else []) ++ registrations stack es m
  end%list.
(** every element once, in the order of first occurrence *)
Fixpoint firsts (l : list string) : list string :=
  match l with [] => [] | x :: l => x :: filter (fun y => negb (String.eqb y x)) (firsts l) end.
(** the references for these names *)
Definition references (ks : list string) (d : list entry) : Prop := Forall2 (fun k e => lookup k CITATIONS = Some e) ks d.
Definition always (using_pymc3 : bool) : list entry := cite_arviz :: (if using_pymc3 then [cite_pymc3; cite_theano] else []).
Definition sle (a b : string) : Prop := String.leb a b = true.
Definition sentence (keys : list string) : string :=
  "This research made use of \textsf{exoplanet} \citep{exoplanet:joss, exoplanet:zenodo} and its dependencies \citep{" ++ String.concat ", " keys ++ "}.".
(** only components of the package are used *)
Definition own (es : list event) : Prop := Forall (fun e => match e with Add _ _ => False | _ => True end) es.
(** the text contains a BibTeX entry with this key *)
Definition has_bibtex (bib key : string) : Prop := exists pre kind post,
  bib = pre ++ "@" ++ kind ++ "{" ++ key ++ "," ++ post /\ (kind = "article" \/ kind = "ARTICLE" \/ kind = "misc").
