(** * Specification vocabulary for bls_estimator *)
From Coq Require Import Reals List Bool Arith ZArith String Sorted.
From Verif Require Import Num CoreOps Inst M_dist M_peaks M_acorr M_bls Spec_peaks Spec_acorr.
Import ListNotations.
Local Notation length := List.length.
Open Scope R_scope.

Definition midpoint (x : list R) (t : R) : Prop := exists a b, least x a /\ greatest x b /\ t = (a + b) / 2.
Definition centred (x : list R) (t : R) : list R := map (fun v => v - t) x.
(** the keywords kw' are kw with the given ones put in their place *)
Definition sent (fixed kw kw' : dict) : Prop :=
  (forall k v, In (k, v) fixed -> dget k kw' = Some v) /\ (forall k, ~ In k (map fst fixed) -> dget k kw' = dget k kw).
(** the search limits: max_period unless maximum_period is among the keywords; always
    min_period unless the misspelt keyword is present *)
Definition upper_kw (kw : dict) (max_period : pyv) : pyv := match dget "maximum_period" kw with Some v => v | None => max_period end.
Definition lower_kw (kw : dict) (min_period : pyv) : pyv := match dget "minimim_period" kw with Some v => v | None => min_period end.
(** the number of trial periods for a frequency factor *)
Definition trials (A : astropy) (t y : list R) (yerr : option (list R)) (dur lo hi : pyv) (kw : dict) (ff : R) (n : nat) : Prop :=
  exists kw' ps, sent [("minimum_period"%string, lo); ("maximum_period"%string, hi); ("frequency_factor"%string, pfloat ff)] kw kw' /\
    autoperiod A t y yerr dur kw' = Ok ps /\ length ps = n.
(** the frequency factor used: the given one, or the smallest power of two for which
    there are no more trial periods than data *)
Definition factor_used (A : astropy) (t y : list R) (yerr : option (list R)) (dur lo hi : pyv) (kw : dict) (v : pyv) : Prop :=
  match dget "frequency_factor" kw with
  | Some w => v = w
  | None => exists j, v = pfloat (2 ^ j) /\ (exists n, trials A t y yerr dur lo hi kw (2 ^ j) n /\ (n <= length t)%nat) /\
              forall i, (i < j)%nat -> exists n, trials A t y yerr dur lo hi kw (2 ^ i) n /\ (length t < n)%nat
  end.

(** what astropy guarantees: the number of trial periods falls off with the frequency
    factor; periods are positive and strictly monotone; all arrays have one length *)
Definition grid_shrinks (A : astropy) (t y : list R) (yerr : option (list R)) (dur lo hi : pyv) (kw : dict) : Prop :=
  exists C, forall ff kw', 0 < ff ->
    sent [("minimum_period"%string, lo); ("maximum_period"%string, hi); ("frequency_factor"%string, pfloat ff)] kw kw' ->
    exists ps, autoperiod A t y yerr dur kw' = Ok ps /\ INR (length ps) <= 1 + C / ff.
Record good_pgram (pg : pgram) (ps : list R) : Prop := {
  gp_pos : List.Forall (fun p => 0 < p) (pg_period pg);
  gp_mono : strictly_monotone (pg_period pg);
  gp_power : pg_power pg = map Fin ps;
  gp_len : length (pg_period pg) = length ps;
  gp_transit : length (pg_transit_time pg) = length ps;
  gp_other : forall k v, In (k, v) (pg_other pg) -> length v = length ps
}.
Definition returns_good (A : astropy) : Prop := forall t y yerr dur kw pg, autopower A t y yerr dur kw = Ok pg -> exists ps, good_pgram pg ps.
(** autopower accepts the keywords kw along with those bls_estimator adds *)
Definition accepts (A : astropy) (t y : list R) (yerr : option (list R)) (dur : pyv) (kw : dict) : Prop :=
  forall kw', (forall k, dget k kw' <> None -> dget k kw <> None \/
      In k ["minimum_period"; "maximum_period"; "frequency_factor"; "objective"; "method"; "oversample"]%string) ->
    exists pg, autopower A t y yerr dur kw' = Ok pg.
(** astropy's methods have no such keyword *)
Definition rejects (A : astropy) (k : string) : Prop := forall t y yerr dur kw, dget k kw <> None ->
  autoperiod A t y yerr dur kw = Err TypeErr /\ autopower A t y yerr dur kw = Err TypeErr.

(** info holds the i-th entry of every array of the periodogram *)
Definition columns (pg : pgram) : list (string * list fl) :=
  [("period"%string, map Fin (pg_period pg)); ("power"%string, pg_power pg); ("transit_time"%string, pg_transit_time pg)] ++ pg_other pg.
Definition info_at (pg : pgram) (i : nat) (info : list (string * fl)) : Prop :=
  map fst info = map fst (columns pg) /\ forall k v, In (k, v) info <-> exists l, In (k, l) (columns pg) /\ nth_error l i = Some v.
(** no maximum: no peak and no peak_info; otherwise the highest maximum i, with
    peak_info taken at the sample after it *)
Definition bls_peaks (pg : pgram) (ps : list R) (out : bls_out) : Prop :=
  (bo_peaks out = [] /\ bo_info out = None /\ forall i, ~ strict_peak ps i) \/
  (exists i p info, bo_peaks out = [p] /\ bo_info out = Some info /\ strict_peak ps i /\ (forall j, strict_peak ps j -> nth j ps 0 <= nth i ps 0) /\
     describes (map (fun q => 1 / q) (pg_period pg)) ps i p /\ info_at (bo_bls out) (i + 1) info).
(** the periodogram with its transit times on the time axis of the data: those of
    astropy later by the midpoint; all else as returned by astropy *)
Definition on_data_axis (t0 : R) (pg pg' : pgram) : Prop :=
  pg_period pg' = pg_period pg /\ pg_power pg' = pg_power pg /\ pg_objective pg' = pg_objective pg /\ pg_other pg' = pg_other pg /\
  length (pg_transit_time pg') = length (pg_transit_time pg) /\
  forall i t, nth_error (pg_transit_time pg) i = Some (Fin t) -> nth_error (pg_transit_time pg') i = Some (Fin (t + t0)).
