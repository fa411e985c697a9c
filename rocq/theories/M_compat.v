(** * Model of src/exoplanet/compat.py *)
From Coq Require Import String List Bool.
From Verif Require Import Num.
Import ListNotations.
Open Scope string_scope.

(** What an import statement does, by the dotted name of what it imports: success or an
    exception (ModuleNotFoundError is an ImportError).  Attribute accesses on modules
    (tensor.abs_, config.change_flags) are named in the same way. *)
Definition imports := string -> res unit.
(** compat.py:3-24, the value of USING_PYMC3 *)
Definition select (imp : imports) (force : option string) : res bool :=
  if match force with Some v => String.eqb v "1" | None => false end then     (* os.environ.get(.., "0") == "1" *)
    _ <- imp "pymc3" ;; Ok true                                               (* 3-6 *)
  else match imp "pymc" with                                                  (* 9-12 *)
       | Ok _ => Ok false
       | Err ImportErr => match imp "pymc3" with                              (* 14-24 *)
                          | Ok _ => Ok true
                          | Err ImportErr => Err ImportErr
                          | Err e => Err e
                          end
       | Err e => Err e
       end.
Fixpoint import_all (imp : imports) (ns : list string) : res unit :=
  match ns with [] => Ok tt | n :: ns => _ <- imp n ;; import_all imp ns end.
(** where each name of the module comes from *)
Record namespace := { ns_pymc3 : bool; ns_origin : list (string * string) }.
(** compat.py:26-59 *)
Definition load (imp : imports) (force : option string) : res namespace :=
  b <- select imp force ;;
  if b : bool then
    _ <- import_all imp ["exoplanet_core.pymc3.ops"; "theano.function"; "theano.grad"; "theano.tensor"; "theano.ifelse.ifelse"] ;;   (* 27-31 *)
    _ <- imp "theano.tensor.abs_" ;;                                          (* 33 *)
    assert_op <- match imp "theano.assert_op.Assert" with                     (* 35-38 *)
                 | Ok _ => Ok "theano.assert_op.Assert"
                 | Err ImportErr => _ <- imp "theano.tensor.opt.Assert" ;; Ok "theano.tensor.opt.Assert"
                 | Err e => Err e
                 end ;;
    _ <- imp "theano.gradient.verify_grad" ;;                                 (* 40 *)
    flags <- match import_all imp ["theano"; "theano.config.change_flags"] with   (* 42-47 *)
             | Ok _ => Ok "theano.config.change_flags"
             | Err ImportErr | Err AttrErr => _ <- imp "theano.configparser.change_flags" ;; Ok "theano.configparser.change_flags"
             | Err e => Err e
             end ;;
    Ok {| ns_pymc3 := true;
          ns_origin := [("pm", "pymc3"); ("ops", "exoplanet_core.pymc3.ops"); ("function", "theano.function"); ("grad", "theano.grad"); ("tensor", "theano.tensor");
                        ("ifelse", "theano.ifelse.ifelse"); ("Assert", assert_op); ("verify_grad", "theano.gradient.verify_grad"); ("change_flags", flags)] |}
  else
    _ <- import_all imp ["pytensor"; "pytensor.function"; "pytensor.grad"; "pytensor.tensor"; "pytensor.config.change_flags"; "exoplanet_core.pymc.ops";
                         "pytensor.gradient.verify_grad"; "pytensor.ifelse.ifelse"; "pytensor.raise_op.Assert"] ;;   (* 50-59 *)
    Ok {| ns_pymc3 := false;
          ns_origin := [("pm", "pymc"); ("ops", "exoplanet_core.pymc.ops"); ("function", "pytensor.function"); ("grad", "pytensor.grad"); ("tensor", "pytensor.tensor");
                        ("ifelse", "pytensor.ifelse.ifelse"); ("Assert", "pytensor.raise_op.Assert"); ("verify_grad", "pytensor.gradient.verify_grad"); ("change_flags", "pytensor.config.change_flags")] |}.
