(** * The eccentricity priors: further lemmas and examples *)
From Coq Require Import Reals List Bool Arith ZArith String Lra Lia.
From Verif Require Import Num CoreOps Inst CoreDist M_kwargs M_tensor M_limbdark M_dist M_ecc Spec_dist Spec_ecc L_dist1 L_ecc1 L_ecc2.
Import ListNotations.
Local Notation length := List.length.
Open Scope R_scope.

Lemma van_mixture : forall p logp name fixed multi lower upper model kw x, logp_ok logp ->
  ((not_observed kw \/ p = true) /\ forall e, x e = e name) \/ (p = false /\ observed kw x) -> absent ["lower"; "upper"]%string kw ->
  exists c s hs prior out sg sr frac,
    vaneylen19 p logp true name fixed multi lower upper model kw = Ok (c :: s :: hs ++ [Potential [name] "prior" prior], out) /\
    vaneylen_parameters p name fixed multi hs sg sr frac /\ is_mixture prior x sg sr frac.
Proof.
  intros p logp name fixed multi lower upper model kw x L [[O X]|[-> O]] N.
  - destruct (van_free p logp name fixed multi lower upper model kw O N) as (c & kw' & hs & prior & out & lo & hi & sg & sr & fr & E & _ & _ & _ & _ & _ & HP & HO & M).
    exists c, (Free [] name "Uniform" kw'), hs, prior, out, sg, sr, fr. split; [exact E|]. split; [exact HP|].
    intros e w v g r f EX. apply (M L). rewrite HO, <- X. exact EX.
  - destruct (van_observed logp name fixed multi lower upper model kw x O N) as (c & kw' & hs & prior & out & lo & hi & sg & sr & fr & E & _ & _ & _ & _ & _ & HP & HO & M).
    exists c, (Potential [] name out), hs, prior, out, sg, sr, fr. split; [exact E|]. split; [exact HP|]. exact (M L).
Qed.

Lemma untranslated : forall p logp name fixed multi long lower upper model kw v, not_observed kw -> dget (wrong_keyword p) kw = Some v ->
  (absent ["alpha"; "beta"]%string kw -> exists ss out kw',
     kipping13 p logp true name fixed long None None model kw = Ok (ss, out) /\ In (Free [] name "Beta" kw') ss /\ dget (wrong_keyword p) kw' = Some v) /\
  (absent ["lower"; "upper"]%string kw -> exists ss out kw',
     vaneylen19 p logp true name fixed multi lower upper model kw = Ok (ss, out) /\ In (Free [] name "Uniform" kw') ss /\ dget (wrong_keyword p) kw' = Some v).
Proof.
  intros p logp name fixed multi long lower upper model kw v O H. split; intro N.
  - destruct (kip_unbounded p logp name fixed long model kw O N) as (c & hs & A & B & kw' & out & E & _ & _ & [_ P] & _).
    do 2 eexists. exists kw'. split; [exact E|]. split; [right; apply in_or_app; right; left; reflexivity|].
    rewrite P; [exact H| |]; unfold wrong_keyword; destruct p; cbn; intuition discriminate.
  - destruct (van_free p logp name fixed multi lower upper model kw (or_introl O) N) as (c & kw' & hs & prior & out & lo & hi & sg & sr & fr & E & _ & _ & _ & _ & [_ P] & _).
    do 2 eexists. exists kw'. split; [exact E|]. split; [right; left; reflexivity|].
    rewrite P; [exact H| |]; unfold wrong_keyword; destruct p; cbn; intuition discriminate.
Qed.
Lemma van_conflict : forall p logp name fixed multi lower upper model kw k, In k ["lower"; "upper"]%string -> dget k kw <> None ->
  vaneylen19 p logp true name fixed multi lower upper model kw = Err TypeErr.
Proof.
  intros p logp name fixed multi lower upper model kw k I H. unfold vaneylen19. cbn [negb].
  destruct (if multi then (0.08, 0.08) else (0.76, 0.2)) as [fm fsd].
  rewrite (surjective_pairing (pop_opt "observed" kw)). cbn [snd pop_opt].
  rewrite (dmerge_err _ _ k); [reflexivity|exact I|]. rewrite dget_del_other by (destruct I as [<-|[<-|[]]]; discriminate). exact H.
Qed.

(** the contract on the log densities can be met *)
Definition ex_logp (d : pyv) (e : env) (x : tens) : tens :=
  mkA (ash x) (fun w =>
    match d with
    | PDist c [(_, s)] => halfnormal_logp (match s with PNum v => aget v w | PVar n => aget (e n) w | _ => NaN end) (aget x w)
    | PDist c [(_, PNum a); (_, PNum b)] => weibull_logp (aget a w) (aget b w) (aget x w)
    | _ => NaN
    end).
Lemma ex_logp_ok : logp_ok ex_logp.
Proof. split; [intros e x s w; destruct s; reflexivity|reflexivity]. Qed.
Definition ex_ekw : dict := [("shape"%string, PShape [3%nat]); ("testval"%string, pnum (1 / 10))].
Definition ex_okw : dict := [("observed"%string, PVar "ecc")].
Lemma ecc_example : not_observed ex_ekw /\ absent ["alpha"; "beta"; "dist"; "lower"; "upper"]%string ex_ekw /\ requested ex_ekw (pnum (1 / 10)) /\
  observed ex_okw (fun e => e "ecc"%string) /\ absent ["alpha"; "beta"; "dist"; "lower"; "upper"]%string ex_okw /\
  dget (wrong_keyword false) ex_ekw = Some (pnum (1 / 10)).
Proof.
  split; [left; reflexivity|]. split; [intros k I; cbn in I; repeat (destruct I as [<-|I]; [reflexivity|]); destruct I|].
  split; [right; split; reflexivity|]. split; [right; eexists; split; reflexivity|].
  split; [intros k I; cbn in I; repeat (destruct I as [<-|I]; [reflexivity|]); destruct I|]. reflexivity.
Qed.
