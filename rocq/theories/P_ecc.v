(** * C56-C58: eccentricity priors *)
From Coq Require Import Reals List Bool Arith ZArith String.
From Verif Require Import Num CoreOps Inst CoreDist M_kwargs M_tensor M_limbdark M_dist M_ecc Spec_dist Spec_ecc L_ecc1 L_ecc2 L_ecc3.
Import ListNotations.
Local Notation length := List.length.
Open Scope R_scope.

(** ** C57: which prior is used *)
(** kipping13 without bounds is a beta distribution with the published
    parameters, fixed or with their uncertainties *)
Theorem C57_beta : forall p logp name fixed long model kw, not_observed kw -> absent ["alpha"; "beta"]%string kw ->
  exists c hs A B kw' out, kipping13 p logp true name fixed long None None model kw = Ok (c :: hs ++ [Free [] name "Beta" kw'], out) /\
    no_variable c /\ kipping_parameters p name fixed long hs A B /\
    parameters [("alpha"%string, A); ("beta"%string, B)] ["observed"%string] kw kw' /\ forall e, out e = e name.
Proof. exact kip_unbounded. Qed.
Print Assumptions C57_beta.

(** with one or two bounds it is truncated, the other bound being 0 or 1,
    and starts at the requested value or in the middle; the starting value is
    passed on under the keyword of the PyMC version in use (C56) *)
Theorem C57_bounded : forall p logp name fixed long lower upper model kw, lower <> None \/ upper <> None -> not_observed kw ->
  absent ["alpha"; "beta"; "dist"]%string kw ->
  exists c hs A B lo hi start kwd s out,
    kipping13 p logp true name fixed long lower upper model kw = Ok (c :: hs ++ [s], out) /\ no_variable c /\
    kipping_parameters p name fixed long hs A B /\ bound_or lower 0 lo /\ bound_or upper 1 hi /\
    truncated p [] name "Beta" (PNum lo) (PNum hi) start kwd s /\
    parameters [("alpha"%string, A); ("beta"%string, B)] ["observed"; "initval"; "testval"]%string kw kwd /\
    (forall v, requested kw v -> start = v) /\
    (not_requested kw -> exists m, start = PNum m /\ forall w l h, aget lo w = Fin l -> aget hi w = Fin h -> aget m w = Fin ((l + h) / 2)) /\
    forall e, out e = e name.
Proof. exact kip_bounded. Qed.
Print Assumptions C57_bounded.

(** [observed] turns the prior into a potential and declares no eccentricity *)
Theorem C57_observed : forall p logp name fixed long model kw x, observed kw x -> absent ["alpha"; "beta"]%string kw ->
  exists c hs A B kw' f, kipping13 p logp true name fixed long None None model kw = Ok (c :: hs ++ [Potential [] name f], f) /\
    no_variable c /\ kipping_parameters p name fixed long hs A B /\
    parameters [("alpha"%string, A); ("beta"%string, B)] ["observed"%string] kw kw' /\
    forall e, f e = logp (PDist "Beta" kw') e (x e).
Proof. exact kip_observed. Qed.
Print Assumptions C57_observed.

Theorem C57_observed_bounded : forall (p : bool) logp name fixed long lower upper model kw (x : env -> tens), lower <> None \/ upper <> None -> observed kw x ->
  absent ["alpha"; "beta"; "dist"]%string kw ->
  if p then kipping13 p logp true name fixed long lower upper model kw = Err NotImpl else
  exists c hs A B lo hi kw' f,
    kipping13 p logp true name fixed long lower upper model kw = Ok (c :: hs ++ [Potential [] name f], f) /\ no_variable c /\
    kipping_parameters p name fixed long hs A B /\ bound_or lower 0 lo /\ bound_or upper 1 hi /\
    parameters [("alpha"%string, A); ("beta"%string, B)] ["observed"%string] kw kw' /\
    forall e, f e = logp (PDist "Truncated" [("dist"%string, PDist "Beta" kw'); ("lower"%string, PNum lo); ("upper"%string, PNum hi)]) e (x e).
Proof. exact kip_observed_bounded. Qed.
Print Assumptions C57_observed_bounded.

(** vaneylen19 declares a uniform eccentricity between the bounds or 0 and 1 *)
Theorem C57_vaneylen : forall p logp name fixed multi lower upper model kw, not_observed kw \/ p = true -> absent ["lower"; "upper"]%string kw ->
  exists c kw' hs prior out lo hi sg sr frac,
    vaneylen19 p logp true name fixed multi lower upper model kw = Ok (c :: Free [] name "Uniform" kw' :: hs ++ [Potential [name] "prior" prior], out) /\
    no_variable c /\ potentials (c :: hs) = [] /\ bound_or lower 0 lo /\ bound_or upper 1 hi /\
    parameters [("lower"%string, PNum lo); ("upper"%string, PNum hi)] ["observed"%string] kw kw' /\
    vaneylen_parameters p name fixed multi hs sg sr frac /\ (forall e, out e = e name) /\
    (logp_ok logp -> is_mixture prior out sg sr frac).
Proof. exact van_free. Qed.
Print Assumptions C57_vaneylen.

Theorem C57_vaneylen_observed : forall logp name fixed multi lower upper model kw x, observed kw x -> absent ["lower"; "upper"]%string kw ->
  exists c kw' hs prior out lo hi sg sr frac,
    vaneylen19 false logp true name fixed multi lower upper model kw = Ok (c :: Potential [] name out :: hs ++ [Potential [name] "prior" prior], out) /\
    no_variable c /\ potentials (c :: hs) = [] /\ bound_or lower 0 lo /\ bound_or upper 1 hi /\
    parameters [("lower"%string, PNum lo); ("upper"%string, PNum hi)] ["observed"%string] kw kw' /\
    vaneylen_parameters false name fixed multi hs sg sr frac /\ (forall e, out e = logp (PDist "Uniform" kw') e (x e)) /\
    (logp_ok logp -> is_mixture prior x sg sr frac).
Proof. exact van_observed. Qed.
Print Assumptions C57_vaneylen_observed.

(** under PyMC 3 vaneylen19 ignores [observed] *)
Theorem C57_observed_refuted : forall logp context name fixed multi lower upper model kw x,
  vaneylen19 true logp context name fixed multi lower upper model (("observed"%string, x) :: ddel "observed" kw) =
  vaneylen19 true logp context name fixed multi lower upper model (ddel "observed" kw).
Proof. exact van_ignores. Qed.
Print Assumptions C57_observed_refuted.

(** both need a model, and reject their own parameters as keywords *)
Theorem C57_no_model : forall p logp name fixed b lower upper model kw,
  (forall long, kipping13 p logp false name fixed long lower upper model kw = Err TypeErr) /\
  vaneylen19 p logp false name fixed b lower upper model kw = Err TypeErr.
Proof. exact no_model. Qed.
Print Assumptions C57_no_model.

Theorem C57_conflict : forall p logp name fixed long lower upper model kw k, In k ["alpha"; "beta"]%string -> dget k kw <> None -> not_observed kw ->
  kipping13 p logp true name fixed long lower upper model kw = Err TypeErr.
Proof. exact kip_conflict. Qed.
Print Assumptions C57_conflict.

(** ** C56 (end): without bounds, kipping13 and vaneylen19 pass on the keyword
    that the PyMC version in use does not know *)
Theorem C56_untranslated : forall p logp name fixed multi long lower upper model kw v, not_observed kw -> dget (wrong_keyword p) kw = Some v ->
  (absent ["alpha"; "beta"]%string kw -> exists ss out kw',
     kipping13 p logp true name fixed long None None model kw = Ok (ss, out) /\ In (Free [] name "Beta" kw') ss /\ dget (wrong_keyword p) kw' = Some v) /\
  (absent ["lower"; "upper"]%string kw -> exists ss out kw',
     vaneylen19 p logp true name fixed multi lower upper model kw = Ok (ss, out) /\ In (Free [] name "Uniform" kw') ss /\ dget (wrong_keyword p) kw' = Some v).
Proof. exact untranslated. Qed.
Print Assumptions C56_untranslated.

(** ** C58: the density of vaneylen19 *)
(** the potential is the logarithm of the published mixture density at the
    eccentricity *)
Theorem C58_mixture : forall p logp name fixed multi lower upper model kw x, logp_ok logp ->
  ((not_observed kw \/ p = true) /\ forall e, x e = e name) \/ (p = false /\ observed kw x) -> absent ["lower"; "upper"]%string kw ->
  exists c s hs prior out sg sr frac,
    vaneylen19 p logp true name fixed multi lower upper model kw = Ok (c :: s :: hs ++ [Potential [name] "prior" prior], out) /\
    vaneylen_parameters p name fixed multi hs sg sr frac /\ is_mixture prior x sg sr frac.
Proof. exact van_mixture. Qed.
Print Assumptions C58_mixture.

Example C57_example : not_observed ex_ekw /\ absent ["alpha"; "beta"; "dist"; "lower"; "upper"]%string ex_ekw /\ requested ex_ekw (pnum (1 / 10)) /\
  observed ex_okw (fun e => e "ecc"%string) /\ absent ["alpha"; "beta"; "dist"; "lower"; "upper"]%string ex_okw /\
  dget (wrong_keyword false) ex_ekw = Some (pnum (1 / 10)).
Proof. exact ecc_example. Qed.
Example C58_example : logp_ok ex_logp.
Proof. exact ex_logp_ok. Qed.
