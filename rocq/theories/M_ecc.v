(** * Model of src/exoplanet/distributions/eccentricity.py *)
From Coq Require Import Reals List Bool Arith ZArith String.
From Verif Require Import Num CoreOps Inst CoreDist M_kwargs M_tensor M_limbdark M_dist.
Import ListNotations.
Open Scope R_scope.

Definition pnum (x : R) : pyv := PNum (alit (Fin x)).
(** [d.pop(k, None)] as an optional value *)
Definition pop_opt (k : string) (d : dict) : option pyv * dict :=
  (match dget k d with Some PNone => None | o => o end, ddel k d).
(** the value of a number or random variable.  Simplified: other objects have
    no value. *)
Definition eval (e : env) (v : pyv) : tens :=
  match v with PNum x => x | PVar n => e n | _ => alit NaN end.
Definition opt_num (x : option tens) (d : R) : tens := match x with Some x => x | None => alit (Fin d) end.

Section E.
Variable pymc3 : bool.
(** [_logp(dist, x)], eccentricity.py:247-250: external *)
Variable logp : pyv -> env -> tens -> tens.

(** eccentricity.py:253-261, _truncate.  [pm.Bound(cls, lower, upper)(name, **kw)]
    and [pm.Truncated(name, cls.dist( **kw ), ...)] *)
Definition truncate (scope : list string) (name cls : string) (lower upper : pyv) (kw : dict) : res stmt :=
  _ <- dmerge [("dist"%string, PNone)] kw ;;   (* the name of the second parameter *)
  if pymc3 then
    Ok (Free scope name "Bound" (("dist"%string, PDist cls []) :: ("lower"%string, lower) :: ("upper"%string, upper) :: with_initval true kw))
  else
    let '(initval, kw) := pop_initval PNone kw in
    Ok (Free scope name "Truncated"
      [("dist"%string, PDist cls kw); ("lower"%string, lower); ("upper"%string, upper); ("initval"%string, initval)]).
(** eccentricity.py:264-269, _truncate_dist *)
Definition truncate_dist (cls : string) (lower upper : pyv) (kw : dict) : res pyv :=
  _ <- dmerge [("dist"%string, PNone)] kw ;;
  if pymc3 then Err NotImpl
  else Ok (PDist "Truncated" [("dist"%string, PDist cls kw); ("lower"%string, lower); ("upper"%string, upper)]).

(** the hyperparameter declarations, eccentricity.py:65-80 and 198-222 *)
Definition hyper (scope name : string) (lower upper : pyv) (mu sigma : R) : res stmt :=
  truncate [scope] name "Normal" lower upper
    (("mu"%string, pnum mu) :: ("sigma"%string, pnum sigma) :: with_initval pymc3 [("initval"%string, pnum mu)]).
(** the full name of a variable inside [with pm.Model(name=scope)] *)
Definition scoped (scope name : string) : string := (scope ++ (if pymc3 then "_" else "::") ++ name)%string.

(** eccentricity.py:36-55 *)
Definition kipping_hyper (long : option bool) : R * R * R * R :=
  match long with
  | None => (1.12, 0.1, 3.09, 0.3)                                 (* 39-42 *)
  | Some true => (1.12, 0.1, 3.09, 0.3)                            (* 47-50 *)
  | Some false => (0.697, 0.4, 3.27, 0.3)                          (* 52-55 *)
  end.
(** eccentricity.py:10-122.  [context]: is there a model, either given or on
    the context stack *)
Definition kipping13 (context : bool) (name : string) (fixed : bool) (long : option bool) (lower upper : option tens)
    (model : option pyv) (kw : dict) : res (list stmt * (env -> tens)) :=
  if negb context then Err TypeErr else                            (* 33: pm.modelcontext *)
  let cite := Cite ["kipping13b"%string] model in                  (* 34 *)
  let '(amu, asd, bmu, bsd) := kipping_hyper long in
  hab <- (if fixed then Ok ([], pnum amu, pnum bmu)                (* 58-61 *)
          else ha <- hyper name "alpha" (pnum 0) PNone amu asd ;;
               hb <- hyper name "beta" (pnum 0) PNone bmu bsd ;;
               Ok ([ha; hb], PVar (scoped name "alpha"), PVar (scoped name "beta"))) ;;           (* 65-80 *)
  let '(hs, alpha, beta) := hab in
  let '(ecc, kw) := pop_opt "observed" kw in                       (* 83 *)
  let ab := [("alpha"%string, alpha); ("beta"%string, beta)] in
  match lower, upper with
  | None, None =>
      kab <- dmerge ab kw ;;
      match ecc with
      | None => Ok (cite :: hs ++ [Free [] name "Beta" kab], fun e => e name)                     (* 117-118 *)
      | Some x =>
          let f := fun e => logp (PDist "Beta" kab) e (eval e x) in
          Ok (cite :: hs ++ [Potential [] name f], f)              (* 120-122 *)
      end
  | _, _ =>
      let lower := opt_num lower 0 in                              (* 85 *)
      let upper := opt_num upper 1 in                              (* 86 *)
      match ecc with
      | None =>
          let '(v, kw) := pop_initval (PNum (nlit (1 / 2) * (lower + upper))%num) kw in
          let kw := dset "initval" v kw in                         (* 88-90 *)
          kab <- dmerge ab (with_initval pymc3 kw) ;;
          s <- truncate [] name "Beta" (PNum lower) (PNum upper) kab ;;
          Ok (cite :: hs ++ [s], fun e => e name)                  (* 91-99 *)
      | Some x =>
          if pymc3 then Err NotImpl                                (* 101-105 *)
          else
            kab <- dmerge ab kw ;;
            d <- truncate_dist "Beta" (PNum lower) (PNum upper) kab ;;                            (* 107-115 *)
            let f := fun e => logp d e (eval e x) in
            Ok (cite :: hs ++ [Potential [] name f], f)            (* 122 *)
      end
  end.

(** eccentricity.py:125-237 *)
Definition vaneylen19 (context : bool) (name : string) (fixed multi : bool) (lower upper : option tens)
    (model : option pyv) (kw : dict) : res (list stmt * (env -> tens)) :=
  if negb context then Err TypeErr else                            (* 157: pm.modelcontext *)
  let cite := Cite ["vaneylen19"%string] model in                  (* 158 *)
  let '(sg_mu, sg_sd, sr_mu, sr_sd) := (0.049, 0.02, 0.26, 0.05) in   (* 160-163 *)
  let '(fr_mu, fr_sd) := if multi then (0.08, 0.08) else (0.76, 0.2) in   (* 164-169 *)
  let '(obs, kw) := pop_opt "observed" kw in                       (* 172 *)
  let lower := PNum (opt_num lower 0) in                           (* 173 *)
  let upper := PNum (opt_num upper 1) in                           (* 174 *)
  kab <- dmerge [("lower"%string, lower); ("upper"%string, upper)] kw ;;
  let '(s1, ecc, ret) :=
    match obs, pymc3 with
    | Some x, false =>
        let f := fun e => logp (PDist "Uniform" kab) e (eval e x) in
        (Potential [] name f, x, f)                                (* 183-190 *)
    | _, _ => (Free [] name "Uniform" kab, PVar name, fun e : env => e name)   (* 175-182 *)
    end in
  hgrf <- (if fixed then Ok ([], pnum sg_mu, pnum sr_mu, pnum fr_mu)   (* 193-196 *)
           else hg <- hyper name "sigma_gauss" (pnum 0) PNone sg_mu sg_sd ;;
                hr <- hyper name "sigma_rayleigh" (pnum 0) PNone sr_mu sr_sd ;;
                hf <- hyper name "frac" (pnum 0) (pnum 1) fr_mu fr_sd ;;   (* 197-222 *)
                Ok ([hg; hr; hf], PVar (scoped name "sigma_gauss"), PVar (scoped name "sigma_rayleigh"), PVar (scoped name "frac"))) ;;
  let '(hs, sg, sr, fr) := hgrf in
  let prior := fun e : env =>                                      (* 224-235 *)
    let frac := eval e fr in
    let g := logp (PDist "HalfNormal" [("sigma"%string, sg)]) e (eval e ecc) in
    let r := logp (PDist "Weibull" [("alpha"%string, pnum 2); ("beta"%string, PNum (nlit (sqrt 2) * eval e sr)%num)]) e (eval e ecc) in
    amap2 flogaddexp (nlog (nlit 1 - frac) + g)%num (nlog frac + r)%num in
  Ok (cite :: s1 :: hs ++ [Potential [name] "prior" prior], ret).   (* 237 *)
End E.
