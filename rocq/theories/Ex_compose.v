(** * Example: a transit three days late *)
From Coq Require Import Reals List Bool Arith ZArith.
From Verif Require Import Num CoreOps Inst M_units M_kepler M_kwargs M_tensor M_simple M_ttv Spec_array Spec_ttv Ex_orbit Ex_system L_ttv6.
Import ListNotations.
Open Scope R_scope.

Definition ex_late_ttvs : list (list fl) := [[Fin 0; Fin 3; Fin 0]; [Fin 1; Fin 0]].
Definition ex_late_tts (j : nat) : list R := match j with O => [2; 15; 22; 32] | _ => [3; 12; 22] end.
Definition ex_late : targs := targs_of (Some ex_late_ttvs) None (Some ex_inds) (ex_tkw 2 ex_bs).
(** a SimpleTransitOrbit of one planet given by numbers *)
Definition ex_one_simple : sargs tens :=
  {| sa_period := scalar 10; sa_duration := scalar 1; sa_t0 := Some (scalar 2); sa_b := Some (scalar (1 / 2));
     sa_r_star := None; sa_ror := Some (scalar (1 / 10)) |}.
