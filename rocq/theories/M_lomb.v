(** * Model of lomb_scargle_estimator, src/exoplanet/estimators.py:162-210

    astropy's LombScargle is external: [autopower] is an argument.  Frequencies are
    finite numbers. *)
From Coq Require Import Reals List Bool Arith ZArith String.
From Verif Require Import Num CoreOps Inst M_kwargs M_tensor M_dist M_ttv M_peaks M_bls.
Import ListNotations.
Local Notation length := List.length.
Open Scope R_scope.

(** LombScargle(x, y, yerr).autopower( **kw ): frequencies and powers *)
Definition ls_autopower := list R -> list R -> option (list R) -> dict -> res (list R * list fl).
(** the dictionary of estimators.py:210 without the model object *)
Record ls_out := { lo_freq : list R; lo_power : list fl; lo_peaks : peaks_out }.
(** [1.0 / p]; a python float 0.0 is a ZeroDivisionError, a numpy zero gives inf; here inf *)
Definition recip (p : R) : fl := fdiv (Fin 1) (Fin p).
(** [z ** 6] *)
Definition fpow6 (z : fl) : fl := let z2 := fmul z z in fmul z2 (fmul z2 z2).
(** estimators.py:204 *)
Definition highpass (freq0 : fl) (freq : R) : fl :=
  fdiv (Fin 1) (fsqrt (fadd (Fin 1) (fpow6 (fdiv freq0 (Fin freq))))).
Definition pfl (z : fl) : pyv := PNum (mkA (Ok []) (fun _ => z)).
(** estimators.py:162-210 *)
Definition lomb_scargle_estimator (argsort : list fl -> list nat) (autopower : ls_autopower) (x y : list R) (yerr : option (list R))
    (min_period max_period filter_period : option R) (max_peaks : Z) (kw : dict) : res ls_out :=
  let kw := match min_period with None => kw | Some p => dset "maximum_frequency" (pfl (recip p)) kw end in   (* 190-191 *)
  let kw := match max_period with None => kw | Some p => dset "minimum_frequency" (pfl (recip p)) kw end in   (* 192-193 *)
  kw <- dmerge [("method"%string, PStr "fast"); ("normalization"%string, PStr "psd")] kw ;;
  fp <- autopower x y yerr kw ;;                                                        (* 196-197 *)
  let '(freq, power) := fp in
  let power := map (fun p => fdiv p (Fin (INR (length x)))) power in                    (* 198 *)
  let power_est := power in                                                             (* 199, a copy *)
  power <- match filter_period with
           | None => Ok power
           | Some p => let filt := map (highpass (recip p)) freq in                     (* 203-204 *)
                       if Nat.eqb (length power) (length filt) then Ok (map (fun pq => fmul (fst pq) (snd pq)) (combine power filt)) else Err ValueError   (* 205 *)
           end ;;
  peaks <- find_peaks argsort freq power max_peaks ;;                                   (* 208 *)
  Ok {| lo_freq := freq; lo_power := power_est; lo_peaks := peaks |}.
