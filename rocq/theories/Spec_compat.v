(** * Specification vocabulary for the choice of the backend *)
From Coq Require Import String List Bool.
From Verif Require Import Num M_compat.
Import ListNotations.
Open Scope string_scope.

Definition forced (force : option string) : Prop := force = Some "1".
Definition importable (imp : imports) (n : string) : Prop := imp n = Ok tt.
(** the only failure of an import is ImportError *)
Definition clean (imp : imports) : Prop := forall n e, imp n = Err e -> e = ImportErr.
(** the packages a backend may draw on *)
Definition family (pymc3 : bool) (origin : string) : Prop :=
  if pymc3 then origin = "pymc3" \/ origin = "exoplanet_core.pymc3.ops" \/ String.prefix "theano." origin = true
  else origin = "pymc" \/ origin = "exoplanet_core.pymc.ops" \/ String.prefix "pytensor." origin = true.
(** the names the rest of the package uses *)
Definition api : list string := ["pm"; "ops"; "function"; "grad"; "tensor"; "ifelse"; "Assert"; "verify_grad"; "change_flags"].
(** an environment with both backends, and one with an old Theano only *)
Definition modern : imports := fun _ => Ok tt.
Definition old_theano : imports := fun n =>
  if String.prefix "pytensor" n || String.eqb n "pymc" || String.eqb n "theano.assert_op.Assert" then Err ImportErr
  else if String.eqb n "theano.config.change_flags" then Err AttrErr else Ok tt.
(** what every version of a backend has *)
Definition needed (pymc3 : bool) : list string :=
  if pymc3 then ["exoplanet_core.pymc3.ops"; "theano"; "theano.function"; "theano.grad"; "theano.tensor"; "theano.tensor.abs_"; "theano.ifelse.ifelse"; "theano.gradient.verify_grad"]
  else ["exoplanet_core.pymc.ops"; "pytensor"; "pytensor.function"; "pytensor.grad"; "pytensor.tensor"; "pytensor.config.change_flags"; "pytensor.gradient.verify_grad"; "pytensor.ifelse.ifelse"; "pytensor.raise_op.Assert"].
(** a name that newer versions have at one place and older ones at another: the
    newer place is used if it is there *)
Definition found (imp : imports) (missing : list exn) (newer older origin : string) : Prop :=
  (importable imp newer /\ origin = newer) \/ ((exists e, In e missing /\ imp newer = Err e) /\ importable imp older /\ origin = older).
