(** * Model of bls_estimator, src/exoplanet/estimators.py:329-397

    astropy's BoxLeastSquares is external: its methods autoperiod and autopower are
    arguments; errors raised by its constructor count as errors of the first method
    called.  Times are finite numbers. *)
From Coq Require Import Reals List Bool Arith ZArith String.
From Verif Require Import Num CoreOps Inst M_kwargs M_tensor M_dist M_ttv M_peaks M_acorr.
Import ListNotations.
Local Notation length := List.length.
Open Scope R_scope.

(** a python float among the keywords *)
Definition pfloat (r : R) : pyv := PNum (mkA (Ok []) (fun _ => Fin r)).
(** astropy's result dictionary: the arrays period, power and transit_time, the string
    objective and the other arrays by name *)
Record pgram := { pg_period : list R; pg_power : list fl; pg_transit_time : list fl;
                  pg_objective : string; pg_other : list (string * list fl) }.
(** BoxLeastSquares(t, y, dy) followed by .autoperiod(duration, **kw) or
    .autopower(duration, **kw) *)
Record astropy := {
  autoperiod : list R -> list R -> option (list R) -> pyv -> dict -> res (list R);
  autopower : list R -> list R -> option (list R) -> pyv -> dict -> res pgram }.
(** the returned dictionary, estimators.py:388,394-397 *)
Record bls_out := { bo_bls : pgram; bo_peaks : list peak; bo_info : option (list (string * fl)) }.

(** estimators.py:368-372; the fuel bounds the number of calls of autoperiod *)
Fixpoint ff_loop (fuel : nat) (call : R -> res (list R)) (ff : R) (n : nat) : res R :=
  match fuel with
  | O => Err OutOfFuel
  | S fuel => periods <- call ff ;;
              if Nat.ltb n (length periods) then ff_loop fuel call (ff * 2) n else Ok ff
  end.
Definition get_default (k : string) (d : dict) (v : pyv) : pyv := match dget k d with Some w => w | None => v end.
(** v[ind] *)
Definition at_index (ind : nat) (v : list fl) : res fl := match nth_error v ind with Some a => Ok a | None => Err IndexErr end.
(** estimators.py:384 *)
Definition shift_transits (x_ref : R) (pg : pgram) : pgram :=
  {| pg_period := pg_period pg; pg_power := pg_power pg;
     pg_transit_time := map (fun t => fadd t (Fin x_ref)) (pg_transit_time pg);
     pg_objective := pg_objective pg; pg_other := pg_other pg |}.
(** the arrays among pg.items() *)
Definition pg_arrays (pg : pgram) : list (string * list fl) :=
  ("period"%string, map Fin (pg_period pg)) :: ("power"%string, pg_power pg) ::
  ("transit_time"%string, pg_transit_time pg) :: pg_other pg.
(** estimators.py:360-397 *)
Definition bls_estimator (fuel : nat) (argsort : list fl -> list nat) (A : astropy) (x y : list R) (yerr : option (list R))
    (duration min_period max_period objective method oversample : pyv) (kw : dict) : res bls_out :=
  let kw := dset "minimum_period" (get_default "minimim_period" kw min_period) kw in    (* 360 *)
  let kw := dset "maximum_period" (get_default "maximum_period" kw max_period) kw in    (* 361 *)
  a <- amin x ;;
  b <- amax x ;;
  let x_ref := 0.5 * (a + b) in                                                         (* 363 *)
  let t := map (fun v => v - x_ref) x in                                                (* 364 *)
  kw <- match dget "frequency_factor" kw with                                           (* 367-372 *)
        | Some _ => Ok kw
        | None => ff <- ff_loop fuel (fun ff => autoperiod A t y yerr duration (dset "frequency_factor" (pfloat ff) kw)) 1 (length x) ;;
                  Ok (dset "frequency_factor" (pfloat ff) kw)
        end ;;
  kw <- dmerge [("objective"%string, objective); ("method"%string, method); ("oversample"%string, oversample)] kw ;;
  pg <- autopower A t y yerr duration kw ;;                                             (* 375-381 *)
  let pg := shift_transits x_ref pg in                                                  (* 384 *)
  peaks <- find_peaks argsort (map (fun p => 1 / p) (pg_period pg)) (pg_power pg) 1 ;;  (* 387 *)
  match peaks with
  | OnePeak _ => Err TypeErr                                            (* not for max_peaks = 1 *)
  | PeakList [] => Ok {| bo_bls := pg; bo_peaks := []; bo_info := None |}               (* 389-390 *)
  | PeakList (p :: ps) =>
      info <- rlist (map (fun kv => v <- at_index (pk_index p) (snd kv) ;; Ok (fst kv, v)) (pg_arrays pg)) ;;  (* 393-396 *)
      Ok {| bo_bls := pg; bo_peaks := p :: ps; bo_info := Some info |}
  end.
