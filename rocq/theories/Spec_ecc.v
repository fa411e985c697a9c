(** * Specification vocabulary for the eccentricity priors *)
From Coq Require Import Reals List Bool Arith ZArith String.
From Verif Require Import Num CoreOps Inst CoreDist M_limbdark M_dist Spec_dist.
Import ListNotations.
Local Notation length := List.length.
Open Scope R_scope.

Definition number (x : R) : pyv := PNum (alit (Fin x)).
(** the full name of the variable n declared inside a model called [scope] *)
Definition full_name (pymc3 : bool) (scope n : string) : string := (scope ++ (if pymc3 then "_" else "::") ++ n)%string.

(** a bound that may be left out *)
Definition bound_or (x : option tens) (d : R) (v : tens) : Prop :=
  match x with Some y => v = y | None => v = alit (Fin d) end.
(** no value to evaluate the prior at *)
Definition not_observed (kw : dict) : Prop := dget "observed" kw = None \/ dget "observed" kw = Some PNone.
(** the value of an [observed] argument: a number or a random variable *)
Definition observed (kw : dict) (x : env -> tens) : Prop :=
  (exists v, dget "observed" kw = Some (PNum v) /\ forall e, x e = v) \/
  (exists n, dget "observed" kw = Some (PVar n) /\ forall e, x e = e n).
(** kw' holds the parameters, and the caller's keywords other than [used] *)
Definition parameters (params : dict) (used : list string) (kw kw' : dict) : Prop :=
  (forall k v, In (k, v) params -> dget k kw' = Some v) /\
  forall k, ~ In k (map fst params) -> ~ In k used -> dget k kw' = dget k kw.
Definition absent (ks : list string) (kw : dict) : Prop := forall k, In k ks -> dget k kw = None.

(** s declares the variable n with the distribution cls, cut off at lower and
    upper, starting at [start]; kwd are the keywords of cls *)
Definition truncated (pymc3 : bool) (scope : list string) (n cls : string) (lower upper start : pyv) (kwd : dict) (s : stmt) : Prop :=
  if pymc3 then
    exists kw, s = Free scope n "Bound" kw /\ dget "dist" kw = Some (PDist cls []) /\ dget "lower" kw = Some lower /\
      dget "upper" kw = Some upper /\ dget "testval" kw = Some start /\ dget "initval" kw = None /\
      forall k, ~ In k ["dist"; "lower"; "upper"; "testval"; "initval"]%string -> dget k kw = dget k kwd
  else
    exists kw kw', s = Free scope n "Truncated" kw /\ dget "dist" kw = Some (PDist cls kw') /\ dget "lower" kw = Some lower /\
      dget "upper" kw = Some upper /\ dget "initval" kw = Some start /\ dget "testval" kw = None /\
      dget "initval" kw' = None /\ dget "testval" kw' = None /\
      forall k, k <> "initval"%string -> k <> "testval"%string -> dget k kw' = dget k kwd.
(** s declares the hyperparameter n: normal, truncated, starting at its mean *)
Definition hyperparameter (pymc3 : bool) (scope n : string) (lower upper : pyv) (mu sigma : R) (s : stmt) : Prop :=
  exists kwd, truncated pymc3 [scope] n "Normal" lower upper (number mu) kwd s /\
    dget "mu" kwd = Some (number mu) /\ dget "sigma" kwd = Some (number sigma).

(** Kipping (2013): means and uncertainties of alpha and beta *)
Definition kipping_table (long : option bool) : (R * R) * (R * R) :=
  match long with
  | Some false => ((0.697, 0.4), (3.27, 0.3))
  | _ => ((1.12, 0.1), (3.09, 0.3))
  end.
(** the parameters alpha and beta of the prior, and the statements declaring
    them *)
Definition kipping_parameters (pymc3 : bool) (name : string) (fixed : bool) (long : option bool) (hs : list stmt) (alpha beta : pyv) : Prop :=
  let '((am, asd), (bm, bsd)) := kipping_table long in
  if fixed then hs = [] /\ alpha = number am /\ beta = number bm
  else alpha = PVar (full_name pymc3 name "alpha") /\ beta = PVar (full_name pymc3 name "beta") /\
    exists h1 h2, hs = [h1; h2] /\ hyperparameter pymc3 name "alpha" (number 0) PNone am asd h1 /\
      hyperparameter pymc3 name "beta" (number 0) PNone bm bsd h2.

(** Van Eylen et al. (2019): the mixture of a half-normal and a Rayleigh
    distribution *)
Definition halfnormal_density (s x : R) : R := sqrt (2 / PI) / s * exp (- (x * x) / (2 * (s * s))).
Definition rayleigh_density (s x : R) : R := x / (s * s) * exp (- (x * x) / (2 * (s * s))).
Definition mixture (frac sg sr x : R) : R := (1 - frac) * halfnormal_density sg x + frac * rayleigh_density sr x.
(** the potential is the logarithm of the mixture density of the values x *)
Definition is_mixture (prior x sg sr frac : env -> tens) : Prop :=
  forall e w v g r f, aget (x e) w = Fin v -> aget (sg e) w = Fin g -> aget (sr e) w = Fin r -> aget (frac e) w = Fin f ->
    0 <= v -> 0 < g -> 0 < r -> 0 < f < 1 -> aget (prior e) w = Fin (ln (mixture f g r v)).
(** weights and widths of the published fit, (mean, uncertainty) *)
Definition vaneylen_table (multi : bool) : (R * R) * (R * R) * (R * R) :=
  ((0.049, 0.02), (0.26, 0.05), if multi then (0.08, 0.08) else (0.76, 0.2)).
Definition vaneylen_parameters (pymc3 : bool) (name : string) (fixed multi : bool) (hs : list stmt) (sg sr frac : env -> tens) : Prop :=
  let '((gm, gsd), (rm, rsd), (fm, fsd)) := vaneylen_table multi in
  if fixed then hs = [] /\ forall e, sg e = alit (Fin gm) /\ sr e = alit (Fin rm) /\ frac e = alit (Fin fm)
  else (forall e : env, sg e = e (full_name pymc3 name "sigma_gauss") /\ sr e = e (full_name pymc3 name "sigma_rayleigh") /\ frac e = e (full_name pymc3 name "frac")) /\
    exists h1 h2 h3, hs = [h1; h2; h3] /\ hyperparameter pymc3 name "sigma_gauss" (number 0) PNone gm gsd h1 /\
      hyperparameter pymc3 name "sigma_rayleigh" (number 0) PNone rm rsd h2 /\ hyperparameter pymc3 name "frac" (number 0) (number 1) fm fsd h3.
(** PyMC's log densities *)
Definition logp_ok (logp : pyv -> env -> tens -> tens) : Prop :=
  (forall e x s w, aget (logp (PDist "HalfNormal" [("sigma"%string, s)]) e x) w =
     halfnormal_logp (match s with PNum v => aget v w | PVar n => aget (e n) w | _ => NaN end) (aget x w)) /\
  (forall e x a b w, aget (logp (PDist "Weibull" [("alpha"%string, PNum a); ("beta"%string, PNum b)]) e x) w =
     weibull_logp (aget a w) (aget b w) (aget x w)).
