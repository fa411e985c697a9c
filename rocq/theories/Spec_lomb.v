(** * Specification vocabulary for lomb_scargle_estimator *)
From Coq Require Import Reals List Bool Arith ZArith String.
From Verif Require Import Num CoreOps Inst M_dist M_peaks M_bls M_lomb Spec_peaks Spec_bls.
Import ListNotations.
Local Notation length := List.length.
Open Scope R_scope.

(** a period limit becomes the frequency bound 1 / period *)
Definition bound_kw (k : string) (p : option R) : dict := match p with None => [] | Some q => [(k, pfloat (1 / q))] end.
(** the keywords astropy receives *)
Definition ls_keywords (min_period max_period : option R) : dict :=
  bound_kw "maximum_frequency" min_period ++ bound_kw "minimum_frequency" max_period ++
  [("method"%string, PStr "fast"); ("normalization"%string, PStr "psd")].
(** the response of the high-pass filter at frequency f *)
Definition response (filter_period : option R) (f : R) : R :=
  match filter_period with
  | None => 1
  | Some p => if Req_EM_T f 0 then 0 else 1 / sqrt (1 + (1 / p / f) ^ 6)
  end.
Definition usable (p : option R) : Prop := match p with None => True | Some q => q <> 0 end.
(** the powers the peaks are searched in *)
Definition weighted (filter_period : option R) (n : nat) (fs ps : list R) : list R :=
  map (fun fp => snd fp / INR n * response filter_period (fst fp)) (combine fs ps).
