(** * Rounding errors in the semi-major axis from the transit duration: property C121 *)
From Coq Require Import Reals List Arith ZArith.
From Coquelicot Require Import Coquelicot.
From Verif Require Import Num CoreOps Inst M_units M_kepler M_tensor Spec_orbit Spec_array Spec_float Spec_float2 Spec_float9
  L_float36 Ex_float Ex_float8.
Import ListNotations.
Open Scope R_scope.

(** the semi-major axis of the orbit with the given duration, and its derivative, up to the error *)
Theorem C121_aor : forall u rd, accurate u rd -> forall (duration period b : tens) (ror : option tens) s i d p bb k,
  ash duration = Ok s -> (ash period = Ok s \/ ash period = Ok []) -> (ash b = Ok s \/ ash b = Ok []) ->
  match ror with Some r => (ash r = Ok s \/ ash r = Ok []) /\ aget r i = Fin k | None => k = 0 end ->
  aget duration i = Fin d -> aget period i = Fin p -> aget b i = Fin bb -> 
  0 < d <= p / 2 -> 0 <= k -> Rabs bb < 1 + k -> u * grazing (1 + k) bb <= 1 / 1000 ->
  exists A G v g w, computed_aor rd duration period b ror = (A, G) /\ ash A = Ok s /\ ash G = Ok s /\ aget A i = Fin v /\ aget G i = Fin g /\
    0 < v /\ touches d p bb k w /\ off v w <= 41 * u * grazing (1 + k) bb /\
    (d < p / 2 -> exists f', (forall f, (forall x, 0 < x < p / 2 -> touches x p bb k (f x)) -> is_derive f d f') /\
      f' < 0 /\ f' = - (steepness d p bb k w * cos (PI * d / p)) /\ Rabs (g - f') <= 100 * u * grazing (1 + k) bb * steepness d p bb k w).
Proof. exact aor_float. Qed.
Print Assumptions C121_aor.

(** not for every impact parameter below 1: for short grazing transits the machine may find no orbit *)
Theorem C121_grazing_refuted : ~ (forall u rd, accurate u rd -> forall (duration period b : tens) i d p bb,
  aget duration i = Fin d -> aget period i = Fin p -> aget b i = Fin bb -> 0 < d < p / 2 -> 0 <= bb < 1 ->
  exists v, aget (fst (computed_aor rd duration period b None)) i = Fin v).
Proof. exact aor_nan. Qed.
Print Assumptions C121_grazing_refuted.

(** 0.1 days every 3 days at impact parameter 1/2 in double precision: thirteen digits *)
Example C121_example : accurate half_ulp double /\ 0 < 1 / 10 < 3 / 2 /\ 0 <= 1 / 10 /\ Rabs (1 / 2) < 1 + 1 / 10 /\
  half_ulp * grazing (1 + 1 / 10) (1 / 2) <= 1 / 1000 /\ 41 * half_ulp * grazing (1 + 1 / 10) (1 / 2) <= / 10 ^ 13.
Proof. exact aor_float_example. Qed.

