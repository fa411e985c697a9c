(** * The eccentricity prior of vaneylen19 *)
From Coq Require Import Reals List Bool Arith ZArith String Lra Lia.
From Verif Require Import Num CoreOps Inst CoreDist M_kwargs M_tensor M_limbdark M_dist M_ecc Spec_dist Spec_ecc L_real L_fl L_dist1 L_ecc1.
Import ListNotations.
Local Notation length := List.length.
Open Scope R_scope.

Lemma Rltb_true a b : a < b -> Rltb a b = true. Proof. intro H. unfold Rltb. destruct (Rlt_dec a b); [reflexivity|contradiction]. Qed.
Lemma Rltb_false a b : b <= a -> Rltb a b = false. Proof. intro H. unfold Rltb. destruct (Rlt_dec a b); [lra|reflexivity]. Qed.

Lemma half_exp s x : 0 < s -> exp (- (x / s * (x / s)) / 2 + ln (sqrt (2 / PI)) - ln s) = halfnormal_density s x.
Proof.
  intro Hs. assert (P := PI_RGT_0). assert (0 < 2 / PI) by (apply Rdiv_lt_0_compat; lra). assert (S := sqrt_lt_R0 _ H).
  unfold halfnormal_density. unfold Rminus. rewrite !exp_plus, exp_Ropp, !exp_ln by assumption.
  replace (- (x * x) / (2 * (s * s))) with (- (x / s * (x / s)) / 2) by (field; lra). field. lra.
Qed.
Lemma rayleigh_exp r x : 0 < r -> 0 < x ->
  exp (ln 2 - ln (sqrt 2 * r) + (2 - 1) * ln (x / (sqrt 2 * r)) - Rpowr (x / (sqrt 2 * r)) 2) = rayleigh_density r x.
Proof.
  intros Hr Hx. assert (S := sqrt_lt_R0 2 ltac:(lra)). assert (Q := sqrt_sqrt 2 ltac:(lra)). assert (B : 0 < sqrt 2 * r) by (apply Rmult_lt_0_compat; assumption).
  assert (X : 0 < x / (sqrt 2 * r)) by (apply Rdiv_lt_0_compat; assumption).
  assert (PW : Rpowr (x / (sqrt 2 * r)) 2 = x * x / (2 * (r * r))).
  { unfold Rpowr. destruct (Rlt_dec 0 (x / (sqrt 2 * r))); [|contradiction].
    replace 2 with (INR 2) at 2 by (cbn; lra). rewrite Rpower_pow by exact X.
    replace ((x / (sqrt 2 * r)) ^ 2) with (x * x / (sqrt 2 * sqrt 2 * (r * r))) by (field; lra). rewrite Q. reflexivity. }
  rewrite PW. replace ((2 - 1) * ln (x / (sqrt 2 * r))) with (ln (x / (sqrt 2 * r))) by ring.
  unfold Rminus. rewrite !exp_plus, exp_Ropp, !exp_ln by (first [assumption | lra]). unfold rayleigh_density.
  replace (- (x * x) / (2 * (r * r))) with (- (x * x / (2 * (r * r)))) by (field; lra).
  replace (2 * / (sqrt 2 * r) * (x / (sqrt 2 * r))) with (x / (r * r)); [reflexivity|].
  replace (2 * / (sqrt 2 * r) * (x / (sqrt 2 * r))) with (2 / (sqrt 2 * sqrt 2) * (x / (r * r))) by (field; lra). rewrite Q. field. lra.
Qed.
Lemma flog_pos x : 0 < x -> flog (Fin x) = Fin (ln x).
Proof. intro H. cbn [flog]. rewrite Rltb_true by exact H. reflexivity. Qed.
Lemma half_pos s x : 0 < s -> 0 < halfnormal_density s x.
Proof.
  intro H. assert (P := PI_RGT_0). assert (0 < 2 / PI) by (apply Rdiv_lt_0_compat; lra). assert (S := sqrt_lt_R0 _ H0).
  unfold halfnormal_density. apply Rmult_lt_0_compat; [apply Rdiv_lt_0_compat; assumption|apply exp_pos].
Qed.
Lemma ray_pos s x : 0 < s -> 0 <= x -> 0 <= rayleigh_density s x.
Proof.
  intros H X. unfold rayleigh_density. apply Rmult_le_pos; [|apply Rlt_le, exp_pos]. apply Rmult_le_pos; [exact X|]. apply Rlt_le, Rinv_0_lt_compat. nra.
Qed.

Lemma mixture_value f g r x : 0 < f < 1 -> 0 < g -> 0 < r -> 0 <= x ->
  flogaddexp (fadd (flog (fsub (Fin 1) (Fin f))) (halfnormal_logp (Fin g) (Fin x)))
    (fadd (flog (Fin f)) (weibull_logp (Fin 2) (fmul (Fin (sqrt 2)) (Fin r)) (Fin x))) = Fin (ln (mixture f g r x)).
Proof.
  intros Hf Hg Hr Hx. unfold flogaddexp. cbn [fsub fadd fneg fmul]. replace (1 + - f) with (1 - f) by ring.
  rewrite !flog_pos by lra. assert (S := sqrt_lt_R0 2 ltac:(lra)). assert (B : 0 < sqrt 2 * r) by (apply Rmult_lt_0_compat; assumption).
  unfold halfnormal_logp, weibull_logp. rewrite (Rltb_true 0 g), (Rltb_true 0 2), (Rltb_true 0 (sqrt 2 * r)), (Rltb_false x 0) by (first [assumption | lra]).
  cbn [andb]. assert (HP := half_pos g x Hg). assert (RP := ray_pos r x Hr Hx).
  destruct (Rle_lt_or_eq_dec 0 x Hx) as [X|<-].
  - rewrite (flog_pos (x / (sqrt 2 * r))) by (apply Rdiv_lt_0_compat; assumption). cbn [fsub fadd fneg fmul fexp].
    rewrite exp_plus, exp_ln by lra. rewrite (exp_plus (ln f)), (exp_ln f) by lra. rewrite half_exp by exact Hg.
    match goal with |- context [exp (?a + ?b + - ?c)] => change (a + b + - c) with (a + b - c) end. rewrite rayleigh_exp by assumption.
    apply flog_pos. assert (A1 := Rmult_lt_0_compat (1 - f) _ ltac:(lra) HP). assert (A2 := Rmult_le_pos f _ ltac:(lra) RP). unfold mixture in *. lra.
  - replace (0 / (sqrt 2 * r)) with 0 by (field; lra).
    assert (L0 : flog (Fin 0) = Inf false) by (cbn [flog]; rewrite Rltb_false by lra; unfold Reqb; destruct (Req_EM_T 0 0); [reflexivity|lra]).
    rewrite L0. replace (2 - 1) with 1 by ring. 
    assert (M1 : fmul (Fin 1) (Inf false) = Inf false).
    { cbn [fmul]. unfold Reqb, rpos. destruct (Req_EM_T 1 0); [lra|]. rewrite Rltb_true by lra. reflexivity. }
    rewrite M1. cbn [fsub fadd fneg fexp]. rewrite exp_plus, exp_ln by lra. rewrite half_exp by exact Hg.
    unfold mixture. replace (rayleigh_density r 0) with 0 by (unfold rayleigh_density; field; lra).
    rewrite Rmult_0_r. apply flog_pos. assert (A1 := Rmult_lt_0_compat (1 - f) _ ltac:(lra) HP). lra.
Qed.

Section V.
Variable p : bool.
Variable logp : pyv -> env -> tens -> tens.

Lemma van_params name (fixed : bool) multi gm gsd rm rsd fm fsd : vaneylen_table multi = ((gm, gsd), (rm, rsd), (fm, fsd)) ->
  exists hs sg sr fr,
    (if fixed then Ok ([], pnum gm, pnum rm, pnum fm)
     else hg <- hyper p name "sigma_gauss" (pnum 0) PNone gm gsd ;; hr <- hyper p name "sigma_rayleigh" (pnum 0) PNone rm rsd ;;
          hf <- hyper p name "frac" (pnum 0) (pnum 1) fm fsd ;;
          Ok ([hg; hr; hf], PVar (scoped p name "sigma_gauss"), PVar (scoped p name "sigma_rayleigh"), PVar (scoped p name "frac"))) = Ok (hs, sg, sr, fr) /\
    ((exists v, sg = PNum v) \/ exists n, sg = PVar n) /\
    vaneylen_parameters p name fixed multi hs (fun e => eval e sg) (fun e => eval e sr) (fun e => eval e fr).
Proof.
  intro K. unfold vaneylen_parameters. rewrite K. destruct fixed.
  - do 4 eexists. split; [reflexivity|]. split; [left; eexists; reflexivity|]. split; [reflexivity|]. intro e. split; [reflexivity|]. split; reflexivity.
  - destruct (hyper_spec p name "sigma_gauss" (pnum 0) PNone gm gsd) as (h1 & -> & H1).
    destruct (hyper_spec p name "sigma_rayleigh" (pnum 0) PNone rm rsd) as (h2 & -> & H2).
    destruct (hyper_spec p name "frac" (pnum 0) (pnum 1) fm fsd) as (h3 & -> & H3). cbn [rbind].
    do 4 eexists. split; [reflexivity|]. split; [right; eexists; reflexivity|]. split; [intro e; split; [reflexivity|split; reflexivity]|].
    exists h1, h2, h3. split; [reflexivity|]. split; [exact H1|]. split; assumption.
Qed.

Lemma prior_mixture sg sr fr ecc : logp_ok logp -> ((exists v, sg = PNum v) \/ exists n, sg = PVar n) ->
  is_mixture (fun e : env =>
    let frac := eval e fr in
    let g := logp (PDist "HalfNormal" [("sigma"%string, sg)]) e (eval e ecc) in
    let r := logp (PDist "Weibull" [("alpha"%string, pnum 2); ("beta"%string, PNum (nlit (sqrt 2) * eval e sr)%num)]) e (eval e ecc) in
    amap2 flogaddexp (nlog (nlit 1 - frac) + g)%num (nlog frac + r)%num)
   (fun e => eval e ecc) (fun e => eval e sg) (fun e => eval e sr) (fun e => eval e fr).
Proof.
  intros [H1 H2] HS e w v g r f EX EG ER EF Hv Hg Hr Hf. cbv zeta.
  cbn [nlog nadd nsub nmul nlit NumT amap2 amap alit aget]. rewrite H1. unfold pnum. rewrite H2.
  cbn [nlog nadd nsub nmul nlit NumT amap2 amap alit aget]. rewrite EF, EX, ER.
  replace (match sg with PNum u => aget u w | PVar n => aget (e n) w | _ => NaN end) with (Fin g).
  2:{ rewrite <- EG. destruct HS as [(u & ->)|(n & ->)]; reflexivity. }
  apply mixture_value; assumption.
Qed.

Lemma van_free : forall name fixed multi lower upper model kw, not_observed kw \/ p = true -> absent ["lower"; "upper"]%string kw ->
  exists c kw' hs prior out lo hi sg sr frac,
    vaneylen19 p logp true name fixed multi lower upper model kw = Ok (c :: Free [] name "Uniform" kw' :: hs ++ [Potential [name] "prior" prior], out) /\
    no_variable c /\ potentials (c :: hs) = [] /\ bound_or lower 0 lo /\ bound_or upper 1 hi /\
    parameters [("lower"%string, PNum lo); ("upper"%string, PNum hi)] ["observed"%string] kw kw' /\
    vaneylen_parameters p name fixed multi hs sg sr frac /\ (forall e, out e = e name) /\
    (logp_ok logp -> is_mixture prior out sg sr frac).
Proof.
  intros name fixed multi lower upper model kw O N. unfold vaneylen19. cbn [negb].
  destruct (vaneylen_table multi) as [[[gm gsd] [rm rsd]] [fm fsd]] eqn:K.
  destruct (van_params name fixed multi gm gsd rm rsd fm fsd K) as (hs & sg & sr & fr & EH & HS & HP).
  assert (K' := K). unfold vaneylen_table in K'. injection K' as <- <- <- <- E5.
  destruct (if multi then (0.08, 0.08) else (0.76, 0.2)) as [fm' fsd'] eqn:EM. injection E5 as <- <-.
  rewrite (surjective_pairing (pop_opt "observed" kw)). cbn [snd pop_opt]. 
  rewrite dmerge_ok by (apply absent_del; exact N). cbn [rbind].
  assert (S1 : forall (A : Type) (F : pyv -> A) (B : A), match fst (pop_opt "observed" kw), p with Some x, false => F x | _, _ => B end = B).
  { intros A F B. destruct O as [O| ->]; [rewrite (pop_not_observed _ O); destruct p; reflexivity|]. destruct (fst _); reflexivity. }
  rewrite S1. rewrite EH. cbn [rbind].
  exists (Cite ["vaneylen19"%string] model). eexists. exists hs. do 2 eexists.
  exists (opt_num lower 0), (opt_num upper 1), (fun e => eval e sg), (fun e => eval e sr), (fun e => eval e fr).
  split; [reflexivity|]. split; [intros ? ? ? ? Q; discriminate Q|]. split.
  { cbn [potentials flat_map app]. unfold vaneylen_parameters in HP. rewrite K in HP. destruct fixed; [destruct HP as [-> _]; reflexivity|].
    destruct HP as (_ & h1 & h2 & h3 & -> & (k1 & T1 & _) & (k2 & T2 & _) & (k3 & T3 & _)). unfold truncated in *.
    destruct p; [destruct T1 as (? & -> & _), T2 as (? & -> & _), T3 as (? & -> & _)|destruct T1 as (? & ? & -> & _), T2 as (? & ? & -> & _), T3 as (? & ? & -> & _)]; reflexivity. }
  split; [destruct lower; reflexivity|]. split; [destruct upper; reflexivity|]. split.
  { split.
    - intros k w [E|[E|[]]]; injection E as <- <-; reflexivity.
    - intros k N1 N2. rewrite dget_app, !dget_cons. cbn [map fst] in N1.
      destruct (String.eqb_spec k "lower"); [subst; destruct N1; left; reflexivity|].
      destruct (String.eqb_spec k "upper"); [subst; destruct N1; right; left; reflexivity|].
      cbn [dget lookup]. apply dget_del_other. intros ->. apply N2. left. reflexivity. }
  split; [exact HP|]. split; [reflexivity|]. intro L. exact (prior_mixture sg sr fr (PVar name) L HS).
Qed.

End V.

Lemma van_observed : forall logp name fixed multi lower upper model kw x, observed kw x -> absent ["lower"; "upper"]%string kw ->
  exists c kw' hs prior out lo hi sg sr frac,
    vaneylen19 false logp true name fixed multi lower upper model kw = Ok (c :: Potential [] name out :: hs ++ [Potential [name] "prior" prior], out) /\
    no_variable c /\ potentials (c :: hs) = [] /\ bound_or lower 0 lo /\ bound_or upper 1 hi /\
    parameters [("lower"%string, PNum lo); ("upper"%string, PNum hi)] ["observed"%string] kw kw' /\
    vaneylen_parameters false name fixed multi hs sg sr frac /\ (forall e, out e = logp (PDist "Uniform" kw') e (x e)) /\
    (logp_ok logp -> is_mixture prior x sg sr frac).
Proof.
  intros logp name fixed multi lower upper model kw x O N. unfold vaneylen19. cbn [negb].
  destruct (vaneylen_table multi) as [[[gm gsd] [rm rsd]] [fm fsd]] eqn:K.
  destruct (van_params false name fixed multi gm gsd rm rsd fm fsd K) as (hs & sg & sr & fr & EH & HS & HP).
  assert (K' := K). unfold vaneylen_table in K'. injection K' as <- <- <- <- E5.
  destruct (if multi then (0.08, 0.08) else (0.76, 0.2)) as [fm' fsd'] eqn:EM. injection E5 as <- <-.
  destruct (pop_observed _ _ O) as (v & -> & EV). rewrite dmerge_ok by (apply absent_del; exact N). cbn [rbind].
  rewrite EH. cbn [rbind].
  exists (Cite ["vaneylen19"%string] model), ([("lower"%string, PNum (opt_num lower 0)); ("upper"%string, PNum (opt_num upper 1))] ++ ddel "observed" kw), hs. do 2 eexists.
  exists (opt_num lower 0), (opt_num upper 1), (fun e => eval e sg), (fun e => eval e sr), (fun e => eval e fr).
  split; [reflexivity|]. split; [intros ? ? ? ? Q; discriminate Q|]. split.
  { cbn [potentials flat_map app]. unfold vaneylen_parameters in HP. rewrite K in HP. destruct fixed; [destruct HP as [-> _]; reflexivity|].
    destruct HP as (_ & h1 & h2 & h3 & -> & (k1 & T1 & _) & (k2 & T2 & _) & (k3 & T3 & _)). unfold truncated in *.
    destruct T1 as (? & ? & -> & _), T2 as (? & ? & -> & _), T3 as (? & ? & -> & _); reflexivity. }
  split; [destruct lower; reflexivity|]. split; [destruct upper; reflexivity|]. split.
  { split.
    - intros k w [E|[E|[]]]; injection E as <- <-; reflexivity.
    - intros k N1 N2. rewrite dget_app, !dget_cons. cbn [map fst] in N1.
      destruct (String.eqb_spec k "lower"); [subst; destruct N1; left; reflexivity|].
      destruct (String.eqb_spec k "upper"); [subst; destruct N1; right; left; reflexivity|].
      cbn [dget lookup]. apply dget_del_other. intros ->. apply N2. left. reflexivity. }
  split; [exact HP|]. split; [intro e; cbv beta; rewrite EV; reflexivity|]. intro L.
  assert (M := prior_mixture logp sg sr fr v L HS). intros e w y g r f EX. apply M. rewrite EV. exact EX.
Qed.

(** conflicting keywords *)
Lemma kip_conflict : forall p logp name fixed long lower upper model kw k, In k ["alpha"; "beta"]%string -> dget k kw <> None -> not_observed kw ->
  kipping13 p logp true name fixed long lower upper model kw = Err TypeErr.
Proof.
  intros p logp name fixed long lower upper model kw k I H O. unfold kipping13. cbn [negb].
  destruct (kipping_hyper long) as [[[am asd] bm] bsd] eqn:K. destruct (kip_params p name fixed long am asd bm bsd K) as (hs & A & B & -> & HP). cbn [rbind].
  rewrite (pop_not_observed _ O).
  assert (Nk : k <> "observed"%string /\ k <> "initval"%string /\ k <> "testval"%string) by (destruct I as [<-|[<-|[]]]; (split; [discriminate|split; discriminate])).
  destruct Nk as (N1 & N2 & N3).
  assert (E1 : dmerge [("alpha"%string, A); ("beta"%string, B)] (ddel "observed" kw) = Err TypeErr).
  { apply (dmerge_err _ _ k); [exact I|]. rewrite dget_del_other by exact N1. exact H. }
  assert (E2 : forall v w, dmerge [("alpha"%string, A); ("beta"%string, B)] (with_initval p (dset "initval" v (snd (pop_initval w (ddel "observed" kw))))) = Err TypeErr).
  { intros v w. apply (dmerge_err _ _ k); [exact I|]. destruct (with_initval_spec p (dset "initval" v (snd (pop_initval w (ddel "observed" kw)))) v (dget_set_same _ _ _)) as (_ & _ & _ & F).
    rewrite F by (first [assumption | intros []]). rewrite pop_rest. dsolve. exact H. }
  destruct lower, upper; cbn [opt_num]; try (rewrite E1; reflexivity); rewrite (surjective_pairing (pop_initval _ _)), E2; reflexivity.
Qed.
Lemma van_ignores : forall logp context name fixed multi lower upper model kw x,
  vaneylen19 true logp context name fixed multi lower upper model (("observed"%string, x) :: ddel "observed" kw) =
  vaneylen19 true logp context name fixed multi lower upper model (ddel "observed" kw).
Proof.
  intros. unfold vaneylen19. destruct context; [|reflexivity]. cbn [negb].
  assert (E : snd (pop_opt "observed" (("observed"%string, x) :: ddel "observed" kw)) = snd (pop_opt "observed" (ddel "observed" kw))) by (cbn [pop_opt snd]; reflexivity).
  rewrite (surjective_pairing (pop_opt "observed" (("observed"%string, x) :: ddel "observed" kw))), (surjective_pairing (pop_opt "observed" (ddel "observed" kw))), E.
  destruct (fst (pop_opt "observed" (("observed"%string, x) :: ddel "observed" kw))), (fst (pop_opt "observed" (ddel "observed" kw))); reflexivity.
Qed.
