(** * C63-C65: powers of two, the autocorrelation function and its peaks *)
From Coq Require Import Reals List Bool Arith ZArith Lia Lra Sorted.
From Verif Require Import Num CoreOps Inst M_peaks M_acf M_acorr Spec_acf Spec_acorr L_acf1 L_acf2 L_acorr1 L_acorr2.
Import ListNotations.
Open Scope R_scope.

(** C63: the loop stops with the smallest power of two that is at least n *)
Theorem C63_terminates : forall n : Z, exists m N, (0 <= m)%Z /\ (n <= 2 ^ m)%Z /\
  (forall j, (0 <= j)%Z -> (n <= 2 ^ j)%Z -> (m <= j)%Z) /\
  forall fuel, (fuel >= N)%nat -> next_pow_two fuel n = Ok (2 ^ m)%Z.
Proof. exact npt_ok. Qed.
Print Assumptions C63_terminates.
Theorem C63_smallest : forall fuel n v, next_pow_two fuel n = Ok v ->
  exists m, (0 <= m)%Z /\ v = (2 ^ m)%Z /\ (n <= v)%Z /\ forall j, (0 <= j)%Z -> (n <= 2 ^ j)%Z -> (v <= 2 ^ j)%Z.
Proof. exact npt_sound. Qed.
Print Assumptions C63_smallest.
Example C63_case : next_pow_two 20 1000 = Ok 1024%Z /\ next_pow_two 20 1024 = Ok 1024%Z /\ next_pow_two 20 (-3) = Ok 1%Z.
Proof. repeat split. Qed.

(** C64: the Fourier computation is the normalised linear autocorrelation; it is 1 at
    lag 0 and at most 1 in absolute value *)
Theorem C64_autocorrelation : forall xs, ~ constant xs ->
  autocorr_function (series xs) = Ok (map (fun k => Fin (acov xs k / acov xs 0)) (seq 0 (length xs))) /\
  0 < acov xs 0 /\ forall k, Rabs (acov xs k / acov xs 0) <= 1.
Proof. exact acf_ok. Qed.
Print Assumptions C64_autocorrelation.
(** a constant series gives NaN at every lag *)
Theorem C64_constant : forall xs, xs <> [] -> constant xs -> autocorr_function (series xs) = Ok (map (fun _ => NaN) xs).
Proof. exact acf_constant. Qed.
Print Assumptions C64_constant.
(** a scalar is a series of one entry; an empty series and more axes are errors *)
Theorem C64_shapes : forall a, well_formed a ->
  (nd_shape a = [] -> autocorr_function a = Ok [NaN]) /\ (nd_shape a = [0%nat] -> autocorr_function a = Err IndexErr) /\
  ((2 <= length (nd_shape a))%nat -> autocorr_function a = Err ValueError).
Proof. exact acf_shapes. Qed.
Print Assumptions C64_shapes.
Example C64_case : ~ constant [1; 2; 4] /\ well_formed {| nd_shape := [2; 2]%nat; nd_data := [1; 2; 3; 4] |}.
Proof. exact (conj ex_not_constant eq_refl). Qed.

(** C65: the returned period is the lag of the first eligible maximum, or of the second
    if that is higher; it lies within the limits. Nothing is returned exactly when no
    lag is selected *)
Theorem C65_selection : forall gf x y minp maxp ov sm mp out, keeps_length gf ->
  autocorr_estimator (Some gf) x y minp maxp ov sm mp = Ok out ->
  exists pmin pmax, lower_limit x minp pmin /\ upper_limit x maxp pmax /\ length (ac_tau out) = length (ac_acor out) /\
    ((ac_peaks out = [] /\ forall i, ~ selected (ac_tau out) (ac_acor out) pmin pmax i) \/
     (exists i, ac_peaks out = [(nth i (ac_tau out) 0, NaN)] /\ selected (ac_tau out) (ac_acor out) pmin pmax i /\
                eligible (ac_tau out) (ac_acor out) pmin i)).
Proof. exact est_select. Qed.
Print Assumptions C65_selection.
(** the curve is the smoothed autocorrelation of the series interpolated linearly onto
    an even grid, oversampled by the given factor *)
Theorem C65_curve : forall gf x y minp maxp ov sm mp, StronglySorted Rlt x -> (2 <= length x)%nat -> length x = length y -> 0 < ov ->
  exists d n vs pmin out, min_spacing x d /\ 0 < d /\ lower_limit x minp pmin /\ let dx := d / ov in
    (INR n - 1) * dx < nth (length x - 1) x 0 - nth 0 x 0 <= INR n * dx /\
    length vs = n /\ (forall k, (k < n)%nat -> on_segment x y (nth 0 x 0 + INR k * dx) (nth k vs 0)) /\
    autocorr_estimator (Some gf) x y minp maxp ov sm mp = Ok out /\
    ac_tau out = map (fun k => INR k * dx) (seq 0 n) /\
    ac_acor out = gf (map (fun k => fdiv (Fin (acov vs k)) (Fin (acov vs 0))) (seq 0 n)) (sm * pmin / dx).
Proof. exact est_curve. Qed.
Print Assumptions C65_curve.
(** at most one period, whatever max_peaks says *)
Theorem C65_max_peaks : forall gf x y minp maxp ov sm mp mp',
  autocorr_estimator gf x y minp maxp ov sm mp = autocorr_estimator gf x y minp maxp ov sm mp'.
Proof. exact max_peaks_ignored. Qed.
Print Assumptions C65_max_peaks.
Theorem C65_single : forall gf x y minp maxp ov sm mp out,
  autocorr_estimator (Some gf) x y minp maxp ov sm mp = Ok out -> (length (ac_peaks out) <= 1)%nat.
Proof. exact est_single. Qed.
Print Assumptions C65_single.
Theorem C65_no_scipy : forall x y minp maxp ov sm mp, autocorr_estimator None x y minp maxp ov sm mp = Err ImportErr.
Proof. exact est_import. Qed.
Print Assumptions C65_no_scipy.
(** a maximum within the limits can be missed: a higher second maximum beyond max_period
    replaces it *)
Theorem C65_missed_refuted : forall gf, keeps_length gf -> (forall l, gf l 0 = l) ->
  ~ (forall x y pmin pmax ov sm mp out, autocorr_estimator (Some gf) x y (Some pmin) (Some pmax) ov sm mp = Ok out ->
       (exists i, eligible (ac_tau out) (ac_acor out) pmin i /\ nth i (ac_tau out) 0 <= pmax) -> ac_peaks out <> []).
Proof. exact miss_refuted. Qed.
Print Assumptions C65_missed_refuted.
Example C65_case : keeps_length (fun l _ => l) /\ StronglySorted Rlt miss_x /\ length miss_x = length miss_y.
Proof. exact (conj (fun l _ => eq_refl) (conj miss_sorted eq_refl)). Qed.
