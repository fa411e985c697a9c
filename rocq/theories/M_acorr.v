(** * Model of autocorr_estimator, src/exoplanet/estimators.py:245-326

    Times and observations are finite numbers. [scipy.ndimage.gaussian_filter] is
    an argument, [None] when scipy is not installed (estimators.py:13-16). *)
From Coq Require Import Reals List Bool Arith ZArith.
From Verif Require Import Num CoreOps Inst M_peaks M_acf.
Import ListNotations.
Open Scope R_scope.

(** the dictionary of estimators.py:304,312-325: autocorr = (tau, acor), peaks a list
    of (period, period_uncert) *)
Record acorr_out := { ac_tau : list R; ac_acor : list fl; ac_peaks : list (R * fl) }.

(** np.diff *)
Fixpoint diff (x : list R) : list R :=
  match x with a :: ((b :: _) as t) => (b - a) :: diff t | _ => [] end.
(** np.min, x.max(): ValueError on an empty array *)
Definition amin (x : list R) : res R := match x with [] => Err ValueError | a :: l => Ok (fold_left Rmin l a) end.
Definition amax (x : list R) : res R := match x with [] => Err ValueError | a :: l => Ok (fold_left Rmax l a) end.
(** np.arange(start, stop, step): ceil((stop - start) / step) numbers. A zero step is a
    ZeroDivisionError or a ValueError depending on the scalar type; here ValueError *)
Definition arange (start stop step : R) : res (list R) :=
  if Reqb step 0 then Err ValueError else
  Ok (map (fun k => start + INR k * step) (seq 0 (Z.to_nat (Zceil ((stop - start) / step))))).
(** np.interp(q, xp, fp) for one query and increasing xp: linear between the samples
    around q, the end values outside *)
Fixpoint interp1 (xp fp : list R) (q : R) : R :=
  match xp, fp with
  | x0 :: ((x1 :: _) as xt), f0 :: ((f1 :: _) as ft) =>
      if Rltb q x0 then f0 else
      if Rltb q x1 then (f1 - f0) / (x1 - x0) * (q - x0) + f0 else interp1 xt ft q
  | _, f0 :: _ => f0
  | _, [] => 0
  end.
Definition interp (qs xp fp : list R) : res (list R) :=
  if Nat.eqb (length xp) (length fp) then Ok (map (interp1 xp fp) qs) else Err ValueError.

(** estimators.py:245-326; [float(oversample) = 0] is not modelled (NotImpl). The
    uncertainties yerr are never read *)
Definition autocorr_estimator (gaussian_filter : option (list fl -> R -> list fl)) (x y : list R)
    (min_period max_period : option R) (oversample smooth : R) (max_peaks : Z) : res acorr_out :=
  match gaussian_filter with
  | None => Err ImportErr                                                               (* 280-281 *)
  | Some gaussian_filter =>
      min_period <- match min_period with None => amin (diff x) | Some p => Ok p end ;;  (* 283-284 *)
      max_period <- match max_period with
                    | None => b <- amax x ;; a <- amin x ;; Ok (b - a)
                    | Some p => Ok p end ;;                                             (* 285-286 *)
      d <- amin (diff x) ;;
      if Reqb oversample 0 then Err NotImpl else
      let dx := d / oversample in                                                       (* 289 *)
      a <- amin x ;;
      b <- amax x ;;
      xx <- arange a b dx ;;                                                            (* 290 *)
      yy <- interp xx x y ;;                                                            (* 291 *)
      let tau := map (fun v => v - nth 0 x 0) xx in                                     (* 294 *)
      acor <- autocorr_function {| nd_shape := [length yy]; nd_data := yy |} ;;         (* 295 *)
      let smooth := smooth * min_period in
      let acor := gaussian_filter acor (smooth / dx) in                                 (* 296-297 *)
      let peak_inds := local_maxima acor in                                             (* 300-301 *)
      let peak_inds := filter (fun i => Rleb min_period (nth i tau 0)) peak_inds in     (* 302 *)
      let result p := {| ac_tau := tau; ac_acor := acor; ac_peaks := p |} in
      match peak_inds with
      | [] => Ok (result [])                                                            (* 307-308 *)
      | i :: rest =>
          if Rltb max_period (nth i tau 0) then Ok (result []) else
          match rest with
          | [] => Ok (result [(nth i tau 0, NaN)])                                      (* 311-315 *)
          | j :: _ =>
              let i := if flt (fth i acor) (fth j acor) then j else i in                (* 318-319 *)
              if Rltb max_period (nth i tau 0) then Ok (result []) else                 (* 322-323 *)
              Ok (result [(nth i tau 0, NaN)])                                          (* 325-326 *)
          end
      end
  end.
