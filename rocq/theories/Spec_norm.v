(** * Specification: the prior of vaneylen19 as a density (C96) *)
From Coq Require Import Reals String List.
From Coquelicot Require Import Coquelicot.
From Verif Require Import Num CoreOps Inst M_tensor M_dist M_ecc Spec_ecc.
Open Scope R_scope.

(** the same values of the variables except that [name] is the number [v] *)
Definition with_value (e : env) (name : string) (v : R) : env := fun n => if String.eqb n name then alit (Fin v) else e n.
(** the density a log density stands for *)
Definition density_of (l : fl) : R := match l with Fin x => exp x | _ => 0 end.
(** the share of the mixture between two eccentricities: the half-normal part
    and, in closed form, the Rayleigh part *)
Definition share (frac sg sr lo hi : R) : R :=
  (1 - frac) * RInt (halfnormal_density sg) lo hi + frac * (exp (- (lo * lo) / (2 * (sr * sr))) - exp (- (hi * hi) / (2 * (sr * sr)))).
