(** * Specification vocabulary for the accuracy of light curves *)
From Coq Require Import Reals List Bool Arith ZArith.
From Verif Require Import Num CoreOps Inst M_units M_kepler M_fin M_tensor M_simple Spec_orbit Spec_params Spec_array Spec_light Spec_delay Spec_lip.
Open Scope R_scope.

(** an integration rule with enough nodes to be centred on the exposure *)
Definition centred (osam order : Z) : Prop :=
  (order = 0 /\ 1 <= osam)%Z \/ ((order = 1 \/ order = 2) /\ 2 <= osam)%Z.
(** the error of the rule over exposures e of curves with slopes at most L *)
Definition rule_error (osam order : Z) (L e : R) : R :=
  if Z.eqb order 0 then L * e / (4 * IZR osam) else
  if Z.eqb order 1 then L * e / (4 * (IZR osam - 1)) else 5 * L * e / (18 * (IZR osam - 1)).
(** the steepest slope of the light curve of a planet of radius r that moves at most at speed v across a star of radius rstar *)
Definition steepest (u1 u2 r rstar v : R) : R := weight u1 u2 * (4 * (r / rstar) * (v / rstar)).
(** at every time the light curve of planet j is F j, a continuous function *)
Definition instantaneous (n : nat) (lc : tens -> res tens) (F : nat -> R -> R) : Prop :=
  (forall N t ts, is_vector N t -> (forall m, (m < N)%nat -> aget t (at_time m) = Fin (ts m)) ->
     exists X, lc t = Ok X /\ light_table n N X (fun m j => F j (ts m))) /\
  forall j, (j < n)%nat -> continuity (F j).
(** X is an N x n table whose entries are within d of g *)
Definition table_near (n N : nat) (X : res tens) (g d : nat -> nat -> R) : Prop :=
  exists A v, X = Ok A /\ light_table n N A v /\ forall m j, (m < N)%nat -> (j < n)%nat -> Rabs (v m j - g m j) <= d m j.
