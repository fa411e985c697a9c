(** * Specification vocabulary for the motion of a TTVOrbit between transits *)
From Coq Require Import Reals List Bool Arith ZArith.
From Verif Require Import Num CoreOps Inst M_units M_kepler M_fin M_tensor M_ttv Spec_orbit Spec_params Spec_array Spec_light Spec_ttv Spec_cont.
Open Scope R_scope.

(** what a TTVOrbit of n planets reports, whatever times it is asked for:
    at time t body b of planet j is at X b j t and has the velocity V b j t *)
Definition ttv_motion (k : consts) (n : nat) (o : ttvorbit) (X V : body -> nat -> R -> R * R * R) : Prop :=
  forall N t ts b, is_vector N t -> (forall m, (m < N)%nat -> aget t (at_time m) = Fin (ts m)) ->
  is_table3 n N (tpos k o b t None false) (fun m j => fin3 (X b j (ts m))) /\
  is_table3 n N (tvel o b t) (fun m j => fin3 (V b j (ts m))).
(** a is a whole number of b *)
Definition whole (a b : R) : Prop := exists z : Z, a = IZR z * b.
(** at t the values of f are the limits of its values at times that approach t *)
Definition continuous_at (f : R -> R * R * R) (t : R) : Prop :=
  forall ts, Un_cv ts t -> vec_tends (fun q => f (ts q)) (f t).
(** the flux lost half the time d after the transit and half the time d before it is the same *)
Definition meets (u1 u2 : R) (k : consts) (o : orbit R) (r d : R) : Prop :=
  flux_at u1 u2 (pos k o Relative (o_t0 o + d / 2) None false) r (o_r_star o) =
  flux_at u1 u2 (pos k o Relative (o_t0 o - d / 2) None false) r (o_r_star o).
