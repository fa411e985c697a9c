(** * Model of find_peaks, src/exoplanet/estimators.py:119-159

    Frequencies are finite numbers, powers are IEEE values without rounding.
    [np.argsort] (numpy's default sort is not stable) is an argument.
    np.linalg.solve is [linsolve] of CoreLin.v. *)
From Coq Require Import Reals List Bool Arith ZArith.
From Verif Require Import Num CoreOps Inst CoreLin M_ttv.
Import ListNotations.
Open Scope R_scope.

(** the dictionary of estimators.py:148-153 *)
Record peak := { pk_index : nat; pk_log_power : fl; pk_period : fl; pk_period_uncert : fl }.
(** estimators.py:155-159: one dictionary or a list of them *)
Inductive peaks_out := OnePeak (p : peak) | PeakList (l : list peak).

Definition fth (i : nat) (l : list fl) : fl := nth i l NaN.
(** estimators.py:138-139 *)
Definition local_maxima (power : list fl) : list nat :=
  filter (fun i => flt (fth (i - 1) power) (fth i power) && flt (fth (i + 1) power) (fth i power))
         (seq 1 (length power - 2)).
(** [np.linalg.solve(A, b)] with a finite matrix: every solution component that is
    used is NaN if b is not finite *)
Definition linsolve_fl (A : list (list R)) (b : list fl) : res (list fl) :=
  w <- linsolve A (map (fun z => match z with Fin r => r | _ => 0 end) b) ;;
  Ok (if forallb (fun z => match z with Fin _ => true | _ => false end) b then map Fin w else map (fun _ => NaN) w).
(** estimators.py:143-153 *)
Definition fit_peak (freq : list R) (power : list fl) (i : nat) : res peak :=
  let A := map (fun f => [f * f; f; 1]) (firstn 3 (skipn (i - 1) freq)) in              (* np.vander(_, 3) *)
  w <- linsolve_fl A (map flog (firstn 3 (skipn (i - 1) power))) ;;
  let sigma2 := fdiv (Fin (-0.5)) (fth 0 w) in
  let freq0 := fmul (fth 1 w) sigma2 in
  let freq2 := fmul freq0 freq0 in
  Ok {| pk_index := i + 1;
        pk_log_power := fadd (fth 2 w) (fdiv (fmul (Fin 0.5) freq2) sigma2);
        pk_period := fdiv (Fin 1) freq0;
        pk_period_uncert := fsqrt (fdiv sigma2 (fmul freq2 freq2)) |}.
(** estimators.py:119-159 *)
Definition find_peaks (argsort : list fl -> list nat) (freq : list R) (power : list fl) (max_peaks : Z) : res peaks_out :=
  let inds := local_maxima power in
  let order := argsort (map (fun i => fth i power) inds) in
  let inds := rev (map (fun j => nth j inds 0%nat) order) in                           (* 140 *)
  peaks <- rlist (map (fit_peak freq power) (firstn (Z.to_nat (Z.max 1 max_peaks)) inds)) ;;
  if negb (Z.eqb max_peaks 0) then Ok (PeakList peaks) else
  match peaks with
  | [] => Err ValueError
  | p :: _ => Ok (OnePeak p)
  end.
