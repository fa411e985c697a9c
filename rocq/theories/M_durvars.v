(** * Model of src/exoplanet/orbits/dur_to_ecc.py:102-110: the variables of the submodels

    A submodel is its name and its [named_vars], in the order of declaration.
    The result is the list of the deterministics declared in the enclosing
    model; None stands for a KeyError. *)
From Coq Require Import Reals List Bool Arith String.
From Verif Require Import Num CoreOps Inst M_units M_kepler M_tensor M_kwargs.
Import ListNotations.
Open Scope R_scope.

Definition submodel := (string * list (string * tens))%type.
(** [k[n:]] *)
Definition str_from (n : nat) (k : string) : string := substring n (String.length k - n) k.
(** dur_to_ecc.py:107: [model.named_vars[model.name + "_" + name]] for every model *)
Fixpoint values_of (name : string) (models : list submodel) : option (list tens) :=
  match models with
  | [] => Some []
  | m :: models =>
      match lookup (fst m ++ "_" ++ name)%string (snd m), values_of name models with
      | Some v, Some l => Some (v :: l)
      | _, _ => None
      end
  end.
(** dur_to_ecc.py:106-109: python's [sum] of exp(logw[i]) * value, starting at 0 *)
Definition weighted (logw : list fl) (values : list tens) : tens :=
  fold_left (fun (acc : tens) p => acc + alit (fexp (fst p)) * snd p)%num (combine logw values) (alit (Fin 0)).
(** dur_to_ecc.py:102-110, for the keys ks of the first model, called n0 *)
Fixpoint marginal_of (n0 : string) (logw : list fl) (models : list submodel) (ks : list string) : option (list (string * tens)) :=
  match ks with
  | [] => Some []
  | k :: ks =>
      let name := str_from (String.length n0 + 1) k in                       (* 103 *)
      match values_of name models, marginal_of n0 logw models ks with
      | Some vs, Some l => Some ((name, weighted logw vs) :: l)
      | _, _ => None
      end
  end.
(** dur_to_ecc.py:102-110.  There is at least one model. *)
Definition marginal_variables (logw : list fl) (models : list submodel) : option (list (string * tens)) :=
  match models with
  | [] => Some []
  | m :: _ => marginal_of (fst m) logw models (map fst (snd m))
  end.
