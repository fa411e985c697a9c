(** * Specification vocabulary for duration_to_eccentricity *)
From Coq Require Import Reals List Bool Arith String.
From Coquelicot Require Import Coquelicot.
From Verif Require Import Num Inst M_durecc.
Import ListNotations.
Open Scope R_scope.

(** the transit duration of a planet of eccentricity e (small-planet approximation) *)
Definition circular_duration (r_star : R) (p : planet) : R :=
  p_period p * r_star * sqrt ((1 + p_ror p) ^ 2 - p_b p ^ 2) / (PI * p_a p).
Definition duration_at (r_star : R) (p : planet) (e : R) : R :=
  circular_duration r_star p * sqrt (1 - e ^ 2) / (1 + e * sin (p_omega p)).
Definition is_eccentricity (r_star : R) (p : planet) (e : R) : Prop := 0 <= e < 1 /\ duration_at r_star p e = p_duration p.
Record transits (r_star : R) (p : planet) : Prop := {
  tr_dur : 0 < p_duration p; tr_period : 0 < p_period p; tr_a : 0 < p_a p; tr_star : 0 < r_star;
  tr_chord : p_b p ^ 2 < (1 + p_ror p) ^ 2
}.
(** the equation of which e1 -+ e2 are the roots, u = duration / circular duration *)
Definition scaled_duration (r_star : R) (p : planet) : R := p_duration p / circular_duration r_star p.
Definition root (r_star : R) (p : planet) (e : R) : Prop :=
  scaled_duration r_star p ^ 2 * (1 + e * sin (p_omega p)) ^ 2 = 1 - e ^ 2.
(** the rate |d e / d duration| *)
Definition rate (r_star : R) (p : planet) (e v : R) : Prop :=
  exists d, is_derive (duration_at r_star p) e d /\ d <> 0 /\ v = 1 / Rabs d.
Fixpoint weighted_sum (f : R -> R) (es vs : list R) : R :=
  match es, vs with e :: es, v :: vs => f e * v + weighted_sum f es vs | _, _ => 0 end.
(** all eccentricities that give the duration *)
Definition all_eccentricities (r_star : R) (p : planet) (es : list R) : Prop :=
  NoDup es /\ forall e, In e es <-> is_eccentricity r_star p e.
(** the weight of a branch: its rate over the sum of all rates; none if it is not valid *)
Definition weight (r_star : R) (p : planet) (total : R) (b : branch) (w : fl) : Prop :=
  (exists e v, br_ecc b = [Fin e] /\ is_eccentricity r_star p e /\ rate r_star p e v /\ fexp w = Fin (v / total)) \/
  (br_ecc b = [Fin 0] /\ br_logjac b = Inf false /\ fexp w = Fin 0).
