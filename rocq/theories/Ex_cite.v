(** * A concrete history *)
From Coq Require Import String List Bool Arith.
From Verif Require Import Num M_kwargs M_citedata M_cite Spec_cite.
Import ListNotations.
Open Scope string_scope.

(** an orbit outside of any model, two models, repeated and nested use *)
Definition ex_events : list event :=
  [Use Keplerian None; Enter 0; Use LimbDark None; Use TTV None; Enter 1; Use QuadLimbDark None; Use Secondary (Some 0); Leave; Use Keplerian None; Use Simple None; Leave].
