(** * C69-C70: citations *)
From Coq Require Import String List Bool Arith Permutation Sorted.
From Verif Require Import Num M_kwargs M_citedata M_cite Spec_cite Ex_cite L_cite.
Import ListNotations.
Open Scope string_scope.
Local Open Scope list_scope.

(** C69: after any history the report on model m is empty if nothing was registered with
    it; else it has the references of what was used in m, each once, in the order of
    first use, after exoplanet and arviz; the keys in the text are sorted *)
Theorem C69_report : forall wrap p3 es m width, let s := history es (empty_world, []) in
  let out := get_citations_for_model wrap p3 (fst s) (snd s) (Some m) width in
  match registrations [] es m with
  | [] => out = Ok ("", "")
  | kss => exists refs keys, references (firsts (concat kss)) refs /\
      Permutation keys (flat_map e_keys (always p3 ++ refs)) /\ StronglySorted sle keys /\
      out = Ok (String.concat newline (wrap (sentence keys) width),
                String.concat newline (map e_bib (cite_exoplanet :: always p3 ++ refs)))
  end.
Proof. exact report_law. Qed.
Print Assumptions C69_report.
(** outside of a model registration does nothing; only the eccentricity priors raise *)
Theorem C69_no_context : forall w c, fst (construct w [] c None) = w /\ snd (construct w [] c None) = match c with Kipping13 | VanEylen19 => Err TypeErr | _ => Ok tt end.
Proof. exact no_context. Qed.
Print Assumptions C69_no_context.
(** inside of a model, or with a model given, registration never raises *)
Theorem C69_never_raises : forall w st c model, (model <> None \/ st <> []) -> snd (construct w st c model) = Ok tt.
Proof. exact never_raises. Qed.
Print Assumptions C69_never_raises.
(** without a model argument the innermost open model is reported on *)
Theorem C69_context : forall wrap p3 w stack width, get_citations_for_model wrap p3 w stack None width =
  match stack with [] => Err TypeErr | m :: _ => get_citations_for_model wrap p3 w stack (Some m) width end.
Proof. exact context_free. Qed.
Print Assumptions C69_context.
(** C70: every key in the text, each occurring once, has a BibTeX entry in the bibliography *)
Theorem C70_bibtex : forall wrap p3 es m width, own es -> registrations [] es m <> [] -> let s := history es (empty_world, []) in
  exists keys bib, get_citations_for_model wrap p3 (fst s) (snd s) (Some m) width = Ok (String.concat newline (wrap (sentence keys) width), bib) /\
    NoDup keys /\ forall key, In key ("exoplanet:joss" :: "exoplanet:zenodo" :: keys)%string -> has_bibtex bib key.
Proof. exact report_bib. Qed.
Print Assumptions C70_bibtex.
(** in the table itself this fails for exactly three entries, none used by the package *)
Theorem C70_table : forall k e, lookup k CITATIONS = Some e ->
  ((forall key, In key (e_keys e) -> has_bibtex (e_bib e) key) <-> ~ In k ["rebound"; "reboundias15"; "reboundx"]%string).
Proof. exact table_law. Qed.
Print Assumptions C70_table.
(** so it fails for users that register those themselves *)
Theorem C70_external_refuted : ~ (forall p3 es m ks refs, ks = firsts (concat (registrations [] es m)) -> references ks refs ->
  forall key, In key (flat_map e_keys (always p3 ++ refs)) -> has_bibtex (String.concat newline (map e_bib (cite_exoplanet :: always p3 ++ refs))) key).
Proof. exact rebound_refs. Qed.
Print Assumptions C70_external_refuted.
Example C69_case : registrations [] ex_events 0 = [["starry"]; ["astropy"]; ["starry"]; ["astropy"]]%string /\
  registrations [] ex_events 1 = [["kipping13"]]%string /\ firsts (concat (registrations [] ex_events 0)) = ["starry"; "astropy"]%string /\
  snd (history ex_events (empty_world, [])) = [].
Proof. exact (conj eq_refl (conj eq_refl (conj eq_refl eq_refl))). Qed.
Example C70_case : own ex_events. Proof. repeat constructor. Qed.
