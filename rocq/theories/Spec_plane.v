(** * Specification vocabulary for integrals over the plane and normal variables *)
From Coq Require Import Reals List String.
From Coquelicot Require Import Coquelicot.
From Verif Require Import M_kwargs M_dist.
Import ListNotations.
Open Scope R_scope.

(** the integral of [f] over all real numbers *)
Definition over_line (f : R -> R) (m : R) : Prop := is_RInt_gen f (Rbar_locally m_infty) (Rbar_locally p_infty) m.
(** the integral of [f] over the plane: along every line b = const except
    perhaps b = 0, and of the result *)
Definition over_plane (f : R -> R -> R) (m : R) : Prop :=
  exists F, (forall b, b <> 0 -> over_line (fun a => f a b) (F b)) /\ over_line F m.
(** density of the standard normal distribution *)
Definition normal_density (x : R) : R := exp (- (x * x / 2)) / sqrt (2 * PI).
(** no keyword changes the mean or the width of a normal variable *)
Definition standard_normal (kw : dict) : Prop := forall k, In k ["mu"; "sigma"; "sd"; "tau"]%string -> dget k kw = None.
