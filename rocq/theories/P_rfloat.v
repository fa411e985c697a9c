(** * Rounding errors in the radius ratio from the transit depth: property C120 *)
From Coq Require Import Reals List Arith ZArith.
From Verif Require Import Num CoreOps Inst M_units M_kepler M_tensor M_limbdark Spec_orbit Spec_array Spec_light Spec_dist Spec_float Spec_float7
  L_float34 Ex_float Ex_float7.
Import ListNotations.
Open Scope R_scope.

(** the radius ratio, and its derivative, of the planet with the given depth up to the error *)
Theorem C120_ror : forall u rd, accurate u rd -> forall u1 u2, physical_law (intensity u1 u2) -> forall (delta b : tens) s i d bb,
  twf delta -> twf b -> (ash delta = Ok s \/ ash delta = Ok []) -> ash b = Ok s -> inside s i -> aget delta i = Fin d -> aget b i = Fin bb ->
  0 < d -> Rabs bb < 1 -> off_limb u u1 u2 bb ->
  exists R J v v' w, computed_ror rd u1 u2 delta b true = (R, Some J) /\ computed_ror rd u1 u2 delta b false = (R, None) /\
    ash R = Ok s /\ ash J = Ok s /\ aget R i = Fin v /\ aget J i = Fin v' /\ 0 < v /\ 0 < v' /\ 0 < w /\ depth u1 u2 bb w = d /\
    off v w <= limb_error u u1 u2 bb /\ off v' (w / (2 * d)) <= 3 * limb_error u u1 u2 bb.
Proof. exact ror_float. Qed.
Print Assumptions C120_ror.

(** not for every impact parameter below 1: next to the limb the machine may find a planet that misses the star *)
Theorem C120_limb_refuted : ~ (forall u rd, accurate u rd -> forall u1 u2, physical_law (intensity u1 u2) -> forall (delta b : tens) s i d bb,
  twf delta -> twf b -> (ash delta = Ok s \/ ash delta = Ok []) -> ash b = Ok s -> inside s i -> aget delta i = Fin d -> aget b i = Fin bb ->
  0 < d -> Rabs bb < 1 -> 0 < intensity u1 u2 (foreshortening bb) ->
  exists v, aget (fst (computed_ror rd u1 u2 delta b false)) i = Fin v).
Proof. exact limb_nan. Qed.
Print Assumptions C120_limb_refuted.

(** impact parameter 1/2 in double precision: twelve digits *)
Example C120_example : accurate half_ulp double /\ physical_law (intensity (3 / 10) (2 / 10)) /\ twf (vector 3 (fun _ => 1 / 2)) /\ inside [3%nat] (at_time 1) /\ Rabs (1 / 2) < 1 /\
  off_limb half_ulp (3 / 10) (2 / 10) (1 / 2) /\ limb_error half_ulp (3 / 10) (2 / 10) (1 / 2) <= / 10 ^ 12.
Proof. exact ror_float_example. Qed.

