(** * C67: the Lomb-Scargle estimator *)
From Coq Require Import Reals List Bool Arith ZArith String.
From Verif Require Import Num CoreOps Inst M_dist M_peaks M_bls M_lomb Spec_peaks Spec_bls Spec_lomb Spec_ecc Ex_peaks Ex_lomb L_lomb.
Import ListNotations.
Local Notation length := List.length.
Open Scope R_scope.

(** C67: the period limits become frequency bounds and replace bounds among the
    keywords; all else is passed on; the periodogram is astropy's power over the number of data *)
Theorem C67_call : forall argsort AP x y yerr minp maxp fp mp kw out, usable minp -> usable maxp ->
  lomb_scargle_estimator argsort AP x y yerr minp maxp fp mp kw = Ok out ->
  exists kw' pw, sent (ls_keywords minp maxp) kw kw' /\ AP x y yerr kw' = Ok (lo_freq out, pw) /\
    lo_power out = map (fun p => fdiv p (Fin (INR (length x)))) pw.
Proof. exact ls_call. Qed.
Print Assumptions C67_call.
(** the returned periodogram does not depend on filter_period *)
Theorem C67_unfiltered : forall argsort AP x y yerr minp maxp fp fp' mp mp' kw out out',
  lomb_scargle_estimator argsort AP x y yerr minp maxp fp mp kw = Ok out ->
  lomb_scargle_estimator argsort AP x y yerr minp maxp fp' mp' kw = Ok out' ->
  lo_freq out = lo_freq out' /\ lo_power out = lo_power out'.
Proof. exact ls_unfiltered. Qed.
Print Assumptions C67_unfiltered.
(** the peaks are those of the power times the filter's response *)
Theorem C67_peaks : forall argsort (AP : ls_autopower) x y yerr minp maxp fp mp kw, sorts argsort -> usable minp -> usable maxp -> usable fp -> x <> [] ->
  absent ["method"; "normalization"]%string kw ->
  (forall kw', sent (ls_keywords minp maxp) kw kw' -> exists fs ps, AP x y yerr kw' = Ok (fs, map Fin ps) /\ length fs = length ps /\
     strictly_monotone fs /\ List.Forall (fun f => 0 <= f) fs) ->
  exists kw' fs ps is pks, sent (ls_keywords minp maxp) kw kw' /\ AP x y yerr kw' = Ok (fs, map Fin ps) /\
    chosen (weighted fp (length x) fs ps) (Z.to_nat (Z.max 1 mp)) is /\ Forall2 (describes fs (weighted fp (length x) fs ps)) is pks /\
    lomb_scargle_estimator argsort AP x y yerr minp maxp fp mp kw =
      let out p := Ok {| lo_freq := fs; lo_power := map (fun p => Fin (p / INR (length x))) ps; lo_peaks := p |} in
      if Z.eqb mp 0 then match pks with [] => Err ValueError | p :: _ => out (OnePeak p) end else out (PeakList pks).
Proof. exact ls_peaks. Qed.
Print Assumptions C67_peaks.
(** the response lies between 0 and 1, increases with the frequency, and is 1 / sqrt 2 at 1 / filter_period *)
Theorem C67_response : forall p f, p <> 0 -> 0 < f ->
  0 < response (Some p) f < 1 /\ (forall g, f < g -> response (Some p) f < response (Some p) g) /\
  (Rabs p * f = 1 -> response (Some p) f = 1 / sqrt 2) /\ response (Some p) 0 = 0 /\ response None f = 1.
Proof. exact response_law. Qed.
Print Assumptions C67_response.
(** method and normalization cannot be chosen *)
Theorem C67_rejects : forall argsort AP x y yerr minp maxp fp mp kw,
  dget "method" kw <> None \/ dget "normalization" kw <> None ->
  lomb_scargle_estimator argsort AP x y yerr minp maxp fp mp kw = Err TypeErr.
Proof. exact ls_rejects. Qed.
Print Assumptions C67_rejects.
Example C67_case : sorts isort /\ usable (Some 0.1) /\ usable None /\ usable (Some 0.25) /\ [1; 2; 3] <> [] /\ absent ["method"; "normalization"]%string [("nyquist_factor"%string, PInt 2)] /\
  (forall kw', sent (ls_keywords (Some 0.1) None) [("nyquist_factor"%string, PInt 2)] kw' -> exists fs ps, ex_autopower [1; 2; 3] [1; 0; 1] None kw' = Ok (fs, map Fin ps) /\
     length fs = length ps /\ strictly_monotone fs /\ List.Forall (fun f => 0 <= f) fs) /\
  exists kw', sent (ls_keywords (Some 0.1) None) [("nyquist_factor"%string, PInt 2)] kw'.
Proof. exact ex_ls. Qed.
