(** * External operation: log densities of PyMC

    PyMC is not part of /repo.  The log densities used in
    src/exoplanet/distributions/eccentricity.py:221-233 are modelled by their
    documented formulas. *)
From Coq Require Import Reals Bool.
From Verif Require Import Num CoreOps Inst.
Open Scope R_scope.

(** HalfNormal(sigma): -(x / sigma)^2 / 2 + log(sqrt(2 / pi)) - log(sigma), x >= 0 *)
Definition halfnormal_logp (sigma x : fl) : fl :=
  match sigma, x with
  | Fin s, Fin x =>
      if Rltb 0 s then (if Rltb x 0 then Inf false else Fin (- (x / s * (x / s)) / 2 + ln (sqrt (2 / PI)) - ln s)) else NaN
  | _, _ => NaN
  end.
(** Weibull(alpha, beta): log(alpha) - log(beta) + (alpha - 1) log(x / beta) - (x / beta)^alpha, x >= 0 *)
Definition weibull_logp (alpha beta x : fl) : fl :=
  match alpha, beta, x with
  | Fin a, Fin b, Fin x =>
      if Rltb 0 a && Rltb 0 b then
        if Rltb x 0 then Inf false
        else fsub (fadd (Fin (ln a - ln b)) (fmul (Fin (a - 1)) (flog (Fin (x / b))))) (Fin (Rpowr (x / b) a))
      else NaN
  | _, _, _ => NaN
  end.
(** logaddexp *)
Definition flogaddexp (a b : fl) : fl := flog (fadd (fexp a) (fexp b)).
