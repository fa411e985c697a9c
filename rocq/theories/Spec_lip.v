(** * Specification vocabulary for steady light curves *)
From Coq Require Import Reals List Bool Arith ZArith.
From Verif Require Import Num CoreOps Inst M_units M_kepler M_fin M_tensor M_simple Spec_orbit Spec_params Spec_array Spec_light.
Open Scope R_scope.

(** a bound on the brightness of the star, times pi, over the flux of the star *)
Definition weight (u1 u2 : R) : R := PI * (1 + Rabs u1 + Rabs u2) / Rabs (disk_flux u1 u2).
(** X and Y are N x n tables of numbers whose entries differ by at most d *)
Definition close_tables (n N : nat) (X Y : res tens) (d : nat -> nat -> R) : Prop :=
  exists A B f g, X = Ok A /\ Y = Ok B /\ light_table n N A f /\ light_table n N B g /\
    forall m j, (m < N)%nat -> (j < n)%nat -> Rabs (f m j - g m j) <= d m j.
(** speed of a SimpleTransitOrbit across the sky: the chord over the duration *)
Definition chord_speed (x : sargs R) : R :=
  let ror := dflt 0 (sa_ror x) in let b := dflt 0 (sa_b x) in
  2 * (dflt 1 (sa_r_star x) * sqrt ((1 + ror) * (1 + ror) - b * b)) / sa_duration x.
