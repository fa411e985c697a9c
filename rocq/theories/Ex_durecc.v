(** * Example data for duration_to_eccentricity *)
From Coq Require Import Reals List String.
Import ListNotations.
From Verif Require Import Num CoreOps Inst M_units M_kepler M_tensor M_durecc M_durvars Spec_durecc Spec_durvars.
Open Scope R_scope.
(** circular duration 1, observed duration 1, sin omega = -3/5: eccentricity 0 or 15/17 *)
Definition ex_planet : planet :=
  {| p_duration := 1; p_ror := 1 / 10; p_b := 0; p_omega := - asin (3 / 5); p_period := PI * 100; p_a := 110 |}.
(** the submodels of ex_planet, with a second variable declared by the user's function *)
Definition ex_vars (e q : R) : list (string * tens) := [("ecc"%string, mkA (Ok [1%nat]) (fun _ => Fin e)); ("depth"%string, alit (Fin q))].
Definition ex_submodels (pymc3 : bool) : list submodel :=
  [("dur_ecc_n"%string, map (fun v => (joined pymc3 "dur_ecc_n" (fst v), snd v)) (ex_vars 0 2));
   ("dur_ecc_p"%string, map (fun v => (joined pymc3 "dur_ecc_p" (fst v), snd v)) (ex_vars (15 / 17) 3))].
