(** * C66: the box least squares estimator *)
From Coq Require Import Reals List Bool Arith ZArith String Sorted.
From Verif Require Import Num CoreOps Inst M_dist M_peaks M_acorr M_bls Spec_peaks Spec_acorr Spec_bls Spec_ecc Ex_peaks Ex_bls L_bls.
Import ListNotations.
Local Notation length := List.length.
Open Scope R_scope.

(** C66: astropy is called on the centred times, with max_period or an explicit
    maximum_period, with min_period, and with the given frequency_factor or else the
    smallest power of two for which there are no more trial periods than data *)
Theorem C66_call : forall fuel argsort A x y yerr dur minp maxp obj meth ov kw out,
  bls_estimator fuel argsort A x y yerr dur minp maxp obj meth ov kw = Ok out ->
  exists t0 ff kw' pg, midpoint x t0 /\
    factor_used A (centred x t0) y yerr dur (lower_kw kw minp) (upper_kw kw maxp) kw ff /\
    sent [("minimum_period"%string, lower_kw kw minp); ("maximum_period"%string, upper_kw kw maxp); ("frequency_factor"%string, ff);
          ("objective"%string, obj); ("method"%string, meth); ("oversample"%string, ov)] kw kw' /\
    autopower A (centred x t0) y yerr dur kw' = Ok pg /\ on_data_axis t0 pg (bo_bls out).
Proof. exact bls_call_axis. Qed.
Print Assumptions C66_call.
(** the search terminates *)
Theorem C66_terminates : forall argsort A x y yerr dur minp maxp obj meth ov kw, sorts argsort -> x <> [] ->
  absent ["objective"; "method"; "oversample"]%string kw ->
  (forall t0, grid_shrinks A (centred x t0) y yerr dur (lower_kw kw minp) (upper_kw kw maxp) kw) ->
  (forall t0, accepts A (centred x t0) y yerr dur kw) -> returns_good A ->
  exists N out, forall fuel, (fuel >= N)%nat -> bls_estimator fuel argsort A x y yerr dur minp maxp obj meth ov kw = Ok out.
Proof. exact bls_defined. Qed.
Print Assumptions C66_terminates.
(** an explicit minimum_period has no effect *)
Theorem C66_minimum : forall fuel argsort A x y yerr dur minp maxp obj meth ov kw,
  bls_estimator fuel argsort A x y yerr dur minp maxp obj meth ov kw =
  bls_estimator fuel argsort A x y yerr dur minp maxp obj meth ov (ddel "minimum_period" kw).
Proof. exact bls_minimum. Qed.
Print Assumptions C66_minimum.
(** so it is not honoured like maximum_period *)
Theorem C66_minimum_refuted : ~ (forall fuel argsort A x y yerr dur minp maxp obj meth ov kw v, sorts argsort ->
  dget "minimum_period" kw = Some v ->
  bls_estimator fuel argsort A x y yerr dur minp maxp obj meth ov kw = bls_estimator fuel argsort A x y yerr dur v maxp obj meth ov kw).
Proof. exact bls_minimum_wrong. Qed.
Print Assumptions C66_minimum_refuted.
(** and the keyword that is read instead is rejected by astropy *)
Theorem C66_misspelt : forall fuel argsort A x y yerr dur minp maxp obj meth ov kw, rejects A "minimim_period" ->
  x <> [] -> (0 < fuel)%nat -> dget "minimim_period" kw <> None ->
  bls_estimator fuel argsort A x y yerr dur minp maxp obj meth ov kw = Err TypeErr.
Proof. exact bls_typo. Qed.
Print Assumptions C66_misspelt.
(** the highest maximum is reported; peak_info belongs to the sample after it *)
Theorem C66_peak : forall fuel argsort A x y yerr dur minp maxp obj meth ov kw out, sorts argsort -> returns_good A ->
  bls_estimator fuel argsort A x y yerr dur minp maxp obj meth ov kw = Ok out ->
  exists t0 pg ps, midpoint x t0 /\ good_pgram pg ps /\ on_data_axis t0 pg (bo_bls out) /\ bls_peaks pg ps out.
Proof. exact bls_peak_axis. Qed.
Print Assumptions C66_peak.
Theorem C66_info_refuted : ~ (forall fuel argsort A x y yerr dur minp maxp obj meth ov kw out info ps, sorts argsort -> returns_good A ->
  bls_estimator fuel argsort A x y yerr dur minp maxp obj meth ov kw = Ok out -> pg_power (bo_bls out) = map Fin ps -> bo_info out = Some info ->
  exists i v, strict_peak ps i /\ In ("power"%string, v) info /\ v = Fin (nth i ps 0)).
Proof. exact bls_info_wrong. Qed.
Print Assumptions C66_info_refuted.
Example C66_case : rejects ex_astropy "minimim_period" /\ returns_good ex_astropy /\
  forall minp kw, ex_known_kw kw -> absent ["objective"; "method"; "oversample"]%string kw -> exists N out, forall fuel, (fuel >= N)%nat ->
    bls_estimator fuel isort ex_astropy [0; 1; 2] [1; 1; 1] None (pfloat 1) minp PNone PNone PNone PNone kw = Ok out.
Proof. exact (conj ex_rejects (conj ex_returns_good ex_run)). Qed.
