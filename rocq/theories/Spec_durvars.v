(** * Specification vocabulary for the variables of the submodels *)
From Coq Require Import Reals List Bool Arith String.
From Verif Require Import Num CoreOps Inst M_units M_kepler M_tensor M_durvars.
Import ListNotations.
Open Scope R_scope.

(** PyMC 3 joins the name of a model and the name of a variable with "_",
    later versions with "::" *)
Definition joined (pymc3 : bool) (model name : string) : string := (model ++ (if pymc3 then "_" else "::") ++ name)%string.
(** the submodel m declares the variables vars *)
Definition declares (pymc3 : bool) (m : submodel) (vars : list (string * tens)) : Prop :=
  snd m = map (fun v => (joined pymc3 (fst m) (fst v), snd v)) vars.
(** the sum of w times x *)
Fixpoint average (ws xs : list R) : R :=
  match ws, xs with w :: ws, x :: xs => w * x + average ws xs | _, _ => 0 end.
