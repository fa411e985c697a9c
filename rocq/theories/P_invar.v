(** * The same observations written down differently: property C93 *)
From Coq Require Import Reals List ZArith Sorted String.
From Verif Require Import Num CoreOps Inst CoreLin M_units M_kepler M_dist M_ttv M_rv M_peaks M_acf M_acorr M_bls Spec_orbit Spec_rv Spec_acf Spec_acorr Spec_bls Spec_invar
  L_invar L_invar2 L_invar3 Ex_bls Ex_orbit Ex_rv Ex_invar.
Import ListNotations.
Open Scope R_scope.

(** semi-amplitudes with reference transits: in any order, with another zero point of the times and of the velocities, other units of the velocities and of the uncertainties. They are multiplied by g; errors are the same errors *)
Theorem C93_transit : forall k periods periods' t0s t0s' x y yerr x' y' yerr' P T0 ts vs sigma ts' vs' sigma' d g c a, consts_ok k ->
  measures periods (u_day k) P -> measures periods' (u_day k) P -> measures t0s (u_day k) T0 -> measures t0s' (u_day k) (map (fun z => z + d) T0) ->
  rv_data k x y yerr ts vs sigma -> rv_data k x' y' yerr' ts' vs' sigma' ->
  List.Forall (fun p => p <> 0) P -> a <> 0 -> rewritten d g c a ts vs sigma ts' vs' sigma' ->
  estimate_semi_amplitude k periods' x' y' yerr' (Some t0s') = rmap (map (Rmult g)) (estimate_semi_amplitude k periods x y yerr (Some t0s)).
Proof. exact transit_invariant. Qed.
Print Assumptions C93_transit.

(** without reference transits they are multiplied by the absolute value of g *)
Theorem C93_phase : forall k periods periods' x y yerr x' y' yerr' P ts vs sigma ts' vs' sigma' d g c a, consts_ok k ->
  measures periods (u_day k) P -> measures periods' (u_day k) P ->
  rv_data k x y yerr ts vs sigma -> rv_data k x' y' yerr' ts' vs' sigma' ->
  List.Forall (fun p => p <> 0) P -> a <> 0 -> rewritten d g c a ts vs sigma ts' vs' sigma' ->
  estimate_semi_amplitude k periods' x' y' yerr' None = rmap (map (Rmult (Rabs g))) (estimate_semi_amplitude k periods x y yerr None).
Proof. exact phase_invariant. Qed.
Print Assumptions C93_phase.

(** so are the minimum masses *)
Theorem C93_mass : forall k mJ periods periods' t0s t0s' x y yerr x' y' yerr' ms P T0 ts vs sigma ts' vs' sigma' d g c a, consts_ok k ->
  measures periods (u_day k) P -> measures periods' (u_day k) P -> measures t0s (u_day k) T0 -> measures t0s' (u_day k) (map (fun z => z + d) T0) ->
  rv_data k x y yerr ts vs sigma -> rv_data k x' y' yerr' ts' vs' sigma' ->
  List.Forall (fun p => p <> 0) P -> a <> 0 -> rewritten d g c a ts vs sigma ts' vs' sigma' ->
  estimate_minimum_mass k mJ periods' x' y' yerr' (Some t0s') ms = rmap (times_q g) (estimate_minimum_mass k mJ periods x y yerr (Some t0s) ms).
Proof. exact transit_mass_invariant. Qed.
Print Assumptions C93_mass.

Theorem C93_mass_phase : forall k mJ periods periods' x y yerr x' y' yerr' ms P ts vs sigma ts' vs' sigma' d g c a, consts_ok k ->
  measures periods (u_day k) P -> measures periods' (u_day k) P ->
  rv_data k x y yerr ts vs sigma -> rv_data k x' y' yerr' ts' vs' sigma' ->
  List.Forall (fun p => p <> 0) P -> a <> 0 -> rewritten d g c a ts vs sigma ts' vs' sigma' ->
  estimate_minimum_mass k mJ periods' x' y' yerr' None ms = rmap (times_q (Rabs g)) (estimate_minimum_mass k mJ periods x y yerr None ms).
Proof. exact phase_mass_invariant. Qed.
Print Assumptions C93_mass_phase.

(** the autocorrelation does not depend on the zero point and the unit of the values, not even on the sign *)
Theorem C93_autocorrelation : forall g c xs, g <> 0 -> autocorr_function (series (map (fun v => g * v + c) xs)) = autocorr_function (series xs).
Proof. exact acf_affine. Qed.
Print Assumptions C93_autocorrelation.

(** nor on the direction of time *)
Theorem C93_reversed : forall xs, autocorr_function (series (rev xs)) = autocorr_function (series xs).
Proof. exact acf_reversed. Qed.
Print Assumptions C93_reversed.

(** the period from the autocorrelation follows the unit of time and depends on nothing else *)
Theorem C93_estimator : forall gf x y minp maxp ov sm mp s d g c, StronglySorted Rlt x -> 0 < s -> g <> 0 ->
  autocorr_estimator gf (map (fun t => s * t + d) x) (map (fun v => g * v + c) y) (option_map (Rmult s) minp) (option_map (Rmult s) maxp) ov sm mp =
  rmap (stretched s) (autocorr_estimator gf x y minp maxp ov sm mp).
Proof. exact estimator_invariant. Qed.
Print Assumptions C93_estimator.

(** box least squares: the transit times move with the times, all else stays *)
Theorem C93_bls : forall fuel argsort A x y yerr dur minp maxp obj meth ov kw d, one_transit_time A ->
  bls_estimator fuel argsort A (map (fun t => t + d) x) y yerr dur minp maxp obj meth ov kw =
  rmap (later d) (bls_estimator fuel argsort A x y yerr dur minp maxp obj meth ov kw).
Proof. exact bls_shifted. Qed.
Print Assumptions C93_bls.

Example C93_example : rv_data ek (plain one_ts) (plain [1; 2; 4]) None one_ts [1; 2; 4] [1; 1; 1] /\
  rv_data ek (plain [10; 15 / 2; 5]) (plain [11; 7; 5]) None [10; 15 / 2; 5] [11; 7; 5] [1; 1; 1] /\
  rewritten 5 2 3 1 one_ts [1; 2; 4] [1; 1; 1] [10; 15 / 2; 5] [11; 7; 5] [1; 1; 1].
Proof. exact rewritten_example. Qed.
Example C93_example_bls : one_transit_time ex_astropy /\ StronglySorted Rlt [0; 1; 3].
Proof. exact (conj one_transit_time_example sorted_example). Qed.
