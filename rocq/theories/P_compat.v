(** * C71: the choice of the backend *)
From Coq Require Import String List Bool.
From Verif Require Import Num M_compat Spec_compat L_compat.
Import ListNotations.
Open Scope string_scope.

(** C71: PyMC3 when forced; else PyMC, else PyMC3; ImportError when neither can be imported *)
Theorem C71_select : forall imp force,
  (forced force -> (importable imp "pymc3" -> select imp force = Ok true) /\ forall e, imp "pymc3" = Err e -> select imp force = Err e) /\
  (~ forced force ->
     (importable imp "pymc" -> select imp force = Ok false) /\
     (imp "pymc" = Err ImportErr -> importable imp "pymc3" -> select imp force = Ok true) /\
     (select imp force = Err ImportErr <-> imp "pymc" = Err ImportErr /\ imp "pymc3" = Err ImportErr)).
Proof. exact select_law. Qed.
Print Assumptions C71_select.
(** all names come from the backend chosen, and all are there *)
Theorem C71_one_family : forall imp force ns, load imp force = Ok ns ->
  select imp force = Ok (ns_pymc3 ns) /\ map fst (ns_origin ns) = api /\
  forall name origin, In (name, origin) (ns_origin ns) -> family (ns_pymc3 ns) origin /\ importable imp origin.
Proof. exact load_pure. Qed.
Print Assumptions C71_one_family.
(** where imports fail with ImportError only, so does the module *)
Theorem C71_error : forall imp force e, clean imp -> load imp force = Err e -> e = ImportErr.
Proof. exact load_error. Qed.
Print Assumptions C71_error.
(** where everything a backend needs is there the module loads, with the names that
    moved between versions of Theano taken from where they are *)
Theorem C71_versions : forall imp force b, select imp force = Ok b -> (forall n, In n (needed b) -> importable imp n) ->
  (b = false -> exists ns, load imp force = Ok ns) /\
  (b = true -> forall assert_op flags,
     found imp [ImportErr] "theano.assert_op.Assert" "theano.tensor.opt.Assert" assert_op ->
     found imp [ImportErr; AttrErr] "theano.config.change_flags" "theano.configparser.change_flags" flags ->
     exists ns, load imp force = Ok ns /\ In ("Assert", assert_op) (ns_origin ns) /\ In ("change_flags", flags) (ns_origin ns)).
Proof. exact load_versions. Qed.
Print Assumptions C71_versions.
Example C71_case : select modern None = Ok false /\ select modern (Some "1") = Ok true /\ select old_theano (Some "yes") = Ok true /\ clean modern /\
  (exists ns, load old_theano None = Ok ns /\ In ("Assert", "theano.tensor.opt.Assert") (ns_origin ns) /\ In ("change_flags", "theano.configparser.change_flags") (ns_origin ns)).
Proof.
  split; [reflexivity|]. split; [reflexivity|]. split; [reflexivity|]. split; [discriminate|]. eexists. split; [reflexivity|]. cbn. tauto.
Qed.
Example C71_versions_case : select old_theano None = Ok true /\ (forall n, In n (needed true) -> importable old_theano n) /\ (forall n, In n (needed false) -> importable modern n) /\
  found old_theano [ImportErr] "theano.assert_op.Assert" "theano.tensor.opt.Assert" "theano.tensor.opt.Assert" /\
  found old_theano [ImportErr; AttrErr] "theano.config.change_flags" "theano.configparser.change_flags" "theano.configparser.change_flags".
Proof.
  split; [reflexivity|]. split; [intros n I; cbn in I; repeat (destruct I as [<-|I]; [reflexivity|]); destruct I|]. split; [reflexivity|]. split; right.
  - split; [exists ImportErr; split; [left; reflexivity|reflexivity]|split; reflexivity].
  - split; [exists AttrErr; split; [right; left; reflexivity|reflexivity]|split; reflexivity].
Qed.
