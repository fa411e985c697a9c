(** * Specification vocabulary: the same observations written down differently *)
From Coq Require Import Reals List Permutation String.
From Verif Require Import Num CoreOps Inst M_units M_acorr M_bls.
Import ListNotations.
Open Scope R_scope.

(** observations: time, value, uncertainty *)
Definition observations (ts vs sigma : list R) : list (R * R * R) := combine (combine ts vs) sigma.
(** the same observations in any order, the times d later, the values multiplied
    by g and c higher, the uncertainties multiplied by a *)
Definition rewritten (d g c a : R) (ts vs sigma ts' vs' sigma' : list R) : Prop :=
  Permutation (observations ts' vs' sigma')
    (map (fun o => (fst (fst o) + d, g * snd (fst o) + c, a * snd o)) (observations ts vs sigma)).
(** g times the numbers, in the same unit *)
Definition times_q (g : R) (q : qty (list R)) : qty (list R) := Q (map (Rmult g) (qv q)) (qu q).
(** the autocorrelation estimate on a time axis with units 1/s times as long *)
Definition stretched (s : R) (o : acorr_out) : acorr_out :=
  {| ac_tau := map (Rmult s) (ac_tau o); ac_acor := ac_acor o; ac_peaks := map (fun p => (s * fst p, snd p)) (ac_peaks o) |}.
(** the box least squares result with every transit time d later, nothing else changed *)
Definition moved (d : R) (z : fl) : fl := match z with Fin t => Fin (t + d) | _ => z end.
Definition later (d : R) (o : bls_out) : bls_out :=
  let pg := bo_bls o in
  {| bo_bls := {| pg_period := pg_period pg; pg_power := pg_power pg; pg_transit_time := map (moved d) (pg_transit_time pg);
                  pg_objective := pg_objective pg; pg_other := pg_other pg |};
     bo_peaks := bo_peaks o;
     bo_info := option_map (map (fun kv => if String.eqb (fst kv) "transit_time" then (fst kv, moved d (snd kv)) else kv)) (bo_info o) |}.
(** a dictionary has every key once *)
Definition one_transit_time (A : astropy) : Prop :=
  forall t y yerr dur kw pg, autopower A t y yerr dur kw = Ok pg -> ~ In "transit_time"%string (map fst (pg_other pg)).
