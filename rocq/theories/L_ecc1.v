(** * The eccentricity priors: which distribution is used *)
From Coq Require Import Reals List Bool Arith ZArith String Lra Lia.
From Verif Require Import Num CoreOps Inst CoreDist M_kwargs M_tensor M_limbdark M_dist M_ecc Spec_dist Spec_ecc L_dist1.
Import ListNotations.
Local Notation length := List.length.
Open Scope R_scope.

Lemma dget_cons k k' v d : dget k ((k', v) :: d) = if String.eqb k k' then Some v else dget k d.
Proof. reflexivity. Qed.
Lemma dmerge_ok ex kw : absent (map fst ex) kw -> dmerge ex kw = Ok (ex ++ kw).
Proof.
  intro H. unfold dmerge. replace (existsb _ ex) with false; [reflexivity|]. symmetry. apply Bool.not_true_is_false. intro E.
  apply existsb_exists in E. destruct E as (p & I & Q). rewrite (H (fst p)) in Q; [discriminate|]. apply in_map. exact I.
Qed.
Lemma dmerge_err ex kw k : In k (map fst ex) -> dget k kw <> None -> dmerge ex kw = Err TypeErr.
Proof.
  intros I H. unfold dmerge. replace (existsb _ ex) with true; [reflexivity|]. symmetry. apply existsb_exists.
  apply in_map_iff in I. destruct I as (p & <- & I). exists p. split; [exact I|]. destruct (dget (fst p) kw); [reflexivity|contradiction].
Qed.
Lemma dget_app k a b : dget k (a ++ b) = match dget k a with Some v => Some v | None => dget k b end.
Proof. unfold dget. induction a as [|[m v] a IH]; [reflexivity|]. cbn [app lookup]. destruct (String.eqb k m); [reflexivity|exact IH]. Qed.
Lemma absent_ks k ks kw : absent ks kw -> In k ks -> dget k kw = None.
Proof. intros H I. exact (H k I). Qed.

(** [truncate] declares what it should *)
Lemma with_start p kw v : dget "initval" kw = Some v \/ (dget "initval" kw = None /\ dget "testval" kw = Some v) ->
  forwarded p [] v kw (with_initval p kw).
Proof. exact (with_initval_only p kw v). Qed.
Lemma truncate_spec p sc n cls lo hi kw start : dget "dist" kw = None -> requested kw start ->
  exists s, truncate p sc n cls lo hi kw = Ok s /\ truncated p sc n cls lo hi start kw s.
Proof.
  intros D R. unfold truncate. rewrite dmerge_ok by (intros k [<-|[]]; exact D). cbn [rbind]. destruct p.
  - eexists. split; [reflexivity|]. destruct (with_initval_only true kw start R) as (F1 & F2 & _ & F4).
    eexists. split; [reflexivity|]. rewrite !dget_cons. cbn [String.eqb Ascii.eqb Bool.eqb]. do 3 (split; [reflexivity|]).
    split; [exact F1|]. split; [exact F2|]. intros k N. rewrite !dget_cons.
    destruct (String.eqb_spec k "dist"); [subst; destruct N; left; reflexivity|].
    destruct (String.eqb_spec k "lower"); [subst; destruct N; right; left; reflexivity|].
    destruct (String.eqb_spec k "upper"); [subst; destruct N; right; right; left; reflexivity|].
    apply F4; [intros ->; apply N; cbn; tauto|intros ->; apply N; cbn; tauto|intros []].
  - rewrite (surjective_pairing (pop_initval PNone kw)), (pop_requested _ _ _ R), pop_rest. eexists. split; [reflexivity|].
    eexists. eexists. split; [reflexivity|]. split; [reflexivity|]. do 4 (split; [reflexivity|]). dsolve. do 2 (split; [reflexivity|]).
    intros k N1 N2. dsolve. reflexivity.
Qed.
Lemma hyper_spec p sc n lo hi mu sd : exists s, hyper p sc n lo hi mu sd = Ok s /\ hyperparameter p sc n lo hi mu sd s.
Proof.
  unfold hyper. match goal with |- context [truncate _ _ _ _ _ _ ?kw] => destruct (truncate_spec p [sc] n "Normal" lo hi kw (number mu)) as (s & E & T) end.
  - destruct p; reflexivity.
  - unfold requested. destruct p; [right; split; reflexivity|left; reflexivity].
  - exists s. split; [exact E|]. eexists. split; [exact T|]. split; reflexivity.
Qed.
Lemma kip_params p name (fixed : bool) long am asd bm bsd : kipping_hyper long = (am, asd, bm, bsd) ->
  exists hs A B,
    (if fixed then Ok ([], pnum am, pnum bm)
     else ha <- hyper p name "alpha" (pnum 0) PNone am asd ;; hb <- hyper p name "beta" (pnum 0) PNone bm bsd ;;
          Ok ([ha; hb], PVar (scoped p name "alpha"), PVar (scoped p name "beta"))) = Ok (hs, A, B) /\
    kipping_parameters p name fixed long hs A B.
Proof.
  intro K. assert (KT : kipping_table long = ((am, asd), (bm, bsd))).
  { destruct long as [[]|]; injection K as <- <- <- <-; reflexivity. }
  unfold kipping_parameters. rewrite KT. destruct fixed.
  - do 3 eexists. split; [reflexivity|]. split; [reflexivity|]. split; reflexivity.
  - destruct (hyper_spec p name "alpha" (pnum 0) PNone am asd) as (h1 & -> & H1).
    destruct (hyper_spec p name "beta" (pnum 0) PNone bm bsd) as (h2 & -> & H2). cbn [rbind].
    do 3 eexists. split; [reflexivity|]. split; [reflexivity|]. split; [reflexivity|]. exists h1, h2. split; [reflexivity|]. split; assumption.
Qed.
Lemma pop_not_observed kw : not_observed kw -> pop_opt "observed" kw = (None, ddel "observed" kw).
Proof. intros [H|H]; unfold pop_opt; rewrite H; reflexivity. Qed.
Lemma pop_observed kw x : observed kw x -> exists v, pop_opt "observed" kw = (Some v, ddel "observed" kw) /\ forall e, eval e v = x e.
Proof.
  intros [(v & H & E)|(n & H & E)]; unfold pop_opt; rewrite H; eexists; (split; [reflexivity|]); intro e; rewrite E; reflexivity.
Qed.
Lemma absent_del ks kw k : absent ks kw -> absent ks (ddel k kw).
Proof.
  intros H j I. destruct (string_dec j k) as [->|N]; [apply dget_del_same|]. rewrite dget_del_other by exact N. exact (H j I).
Qed.

Section K.
Variable p : bool.
Variable logp : pyv -> env -> tens -> tens.

Lemma kip_unbounded : forall name fixed long model kw, not_observed kw -> absent ["alpha"; "beta"]%string kw ->
  exists c hs A B kw' out, kipping13 p logp true name fixed long None None model kw = Ok (c :: hs ++ [Free [] name "Beta" kw'], out) /\
    no_variable c /\ kipping_parameters p name fixed long hs A B /\
    parameters [("alpha"%string, A); ("beta"%string, B)] ["observed"%string] kw kw' /\ forall e, out e = e name.
Proof.
  intros name fixed long model kw O N. unfold kipping13. cbn [negb].
  destruct (kipping_hyper long) as [[[am asd] bm] bsd] eqn:K. destruct (kip_params p name fixed long am asd bm bsd K) as (hs & A & B & -> & HP). cbn [rbind].
  rewrite (pop_not_observed _ O), dmerge_ok by (apply absent_del; exact N). cbn [rbind].
  exists (Cite ["kipping13b"%string] model), hs, A, B. do 2 eexists. split; [reflexivity|]. split; [intros ? ? ? ? Q; discriminate Q|]. split; [exact HP|].
  split; [|reflexivity]. split.
  - intros k v [E|[E|[]]]; injection E as <- <-; reflexivity.
  - intros k N1 N2. rewrite dget_app, !dget_cons. cbn [map fst] in N1.
    destruct (String.eqb_spec k "alpha"); [subst; destruct N1; left; reflexivity|].
    destruct (String.eqb_spec k "beta"); [subst; destruct N1; right; left; reflexivity|].
    cbn [dget lookup]. apply dget_del_other. intros ->. apply N2. left. reflexivity.
Qed.

Lemma kip_bounded : forall name fixed long lower upper model kw, lower <> None \/ upper <> None -> not_observed kw ->
  absent ["alpha"; "beta"; "dist"]%string kw ->
  exists c hs A B lo hi start kwd s out,
    kipping13 p logp true name fixed long lower upper model kw = Ok (c :: hs ++ [s], out) /\ no_variable c /\
    kipping_parameters p name fixed long hs A B /\ bound_or lower 0 lo /\ bound_or upper 1 hi /\
    truncated p [] name "Beta" (PNum lo) (PNum hi) start kwd s /\
    parameters [("alpha"%string, A); ("beta"%string, B)] ["observed"; "initval"; "testval"]%string kw kwd /\
    (forall v, requested kw v -> start = v) /\
    (not_requested kw -> exists m, start = PNum m /\ forall w l h, aget lo w = Fin l -> aget hi w = Fin h -> aget m w = Fin ((l + h) / 2)) /\
    forall e, out e = e name.
Proof.
  intros name fixed long lower upper model kw LU O N. unfold kipping13. cbn [negb].
  destruct (kipping_hyper long) as [[[am asd] bm] bsd] eqn:K. destruct (kip_params p name fixed long am asd bm bsd K) as (hs & A & B & -> & HP). cbn [rbind].
  rewrite (pop_not_observed _ O).
  assert (BR : forall (X Y : res (list stmt * (env -> tens))), match lower, upper with None, None => X | _, _ => Y end = Y) by (intros X Y; destruct lower, upper; try reflexivity; destruct LU; contradiction).
  rewrite BR. clear BR. set (lo := opt_num lower 0). set (hi := opt_num upper 1).
  set (mid := PNum (nlit (1 / 2) * (lo + hi))%num). rewrite (surjective_pairing (pop_initval mid _)).
  set (start := fst (pop_initval mid (ddel "observed" kw))). rewrite pop_rest.
  set (kw2 := dset "initval" start (ddel "initval" (ddel "testval" (ddel "observed" kw)))).
  assert (F := with_initval_spec p kw2 start (dget_set_same _ _ _)). destruct F as (F1 & F2 & _ & F4).
  assert (G : forall k, k <> "initval"%string -> k <> "testval"%string -> k <> "observed"%string -> dget k (with_initval p kw2) = dget k kw).
  { intros k N1 N2 N3. rewrite F4 by (first [assumption | intros []]). unfold kw2. dsolve. reflexivity. }
  rewrite dmerge_ok. 2:{ intros k I. rewrite G; [apply N; destruct I as [<-|[<-|[]]]; cbn; tauto| | |]; destruct I as [<-|[<-|[]]]; discriminate. }
  cbn [rbind].
  match goal with |- context [truncate _ _ _ _ _ _ ?q] => set (kab := q) end.
  assert (GA : forall k, k <> "alpha"%string -> k <> "beta"%string -> dget k kab = dget k (with_initval p kw2)).
  { intros k N1 N2. unfold kab. rewrite dget_app, !dget_cons.
    destruct (String.eqb_spec k "alpha"); [contradiction|]. destruct (String.eqb_spec k "beta"); [contradiction|]. reflexivity. }
  assert (R : requested kab start).
  { unfold requested. rewrite !GA by discriminate. unfold start_keyword, wrong_keyword in *. destruct p; [right; split; assumption|left; assumption]. }
  destruct (truncate_spec p [] name "Beta" (PNum lo) (PNum hi) kab start) as (s & -> & T); [|exact R|].
  { rewrite GA by discriminate. rewrite G by discriminate. apply N. right; right; left; reflexivity. }
  cbn [rbind]. exists (Cite ["kipping13b"%string] model), hs, A, B, lo, hi, start, kab, s. eexists.
  split; [reflexivity|]. split; [intros ? ? ? ? Q; discriminate Q|]. split; [exact HP|].
  split; [unfold lo; destruct lower; reflexivity|]. split; [unfold hi; destruct upper; reflexivity|]. split; [exact T|].
  assert (R2 : forall v, requested kw v -> requested (ddel "observed" kw) v) by (intros v; unfold requested; rewrite !dget_del_other by discriminate; tauto).
  assert (R3 : not_requested kw -> not_requested (ddel "observed" kw)) by (unfold not_requested; rewrite !dget_del_other by discriminate; tauto).
  split; [|split; [intros v H; apply pop_requested; apply R2; exact H|split; [|reflexivity]]].
  - split.
    + intros k v [E|[E|[]]]; injection E as <- <-; reflexivity.
    + intros k N1 N2. cbn [map fst] in N1.
      rewrite GA by (intros ->; apply N1; cbn; tauto). apply G; intros ->; apply N2; cbn; tauto.
  - intro H. exists (nlit (1 / 2) * (lo + hi))%num. split; [apply (pop_default mid _ (R3 H))|].
    intros w l h El Eh. cbn [nmul nadd nlit NumT amap2 alit aget]. rewrite El, Eh. cbn [fadd fmul]. f_equal. field.
Qed.

Lemma kip_observed : forall name fixed long model kw x, observed kw x -> absent ["alpha"; "beta"]%string kw ->
  exists c hs A B kw' f, kipping13 p logp true name fixed long None None model kw = Ok (c :: hs ++ [Potential [] name f], f) /\
    no_variable c /\ kipping_parameters p name fixed long hs A B /\
    parameters [("alpha"%string, A); ("beta"%string, B)] ["observed"%string] kw kw' /\
    forall e, f e = logp (PDist "Beta" kw') e (x e).
Proof.
  intros name fixed long model kw x O N. unfold kipping13. cbn [negb].
  destruct (kipping_hyper long) as [[[am asd] bm] bsd] eqn:K. destruct (kip_params p name fixed long am asd bm bsd K) as (hs & A & B & -> & HP). cbn [rbind].
  destruct (pop_observed _ _ O) as (v & -> & EV). rewrite dmerge_ok by (apply absent_del; exact N). cbn [rbind].
  exists (Cite ["kipping13b"%string] model), hs, A, B. do 2 eexists. split; [reflexivity|]. split; [intros ? ? ? ? Q; discriminate Q|]. split; [exact HP|].
  split; [|intro e; cbv beta; rewrite EV; reflexivity]. split.
  - intros k w [E|[E|[]]]; injection E as <- <-; reflexivity.
  - intros k N1 N2. rewrite dget_app, !dget_cons. cbn [map fst] in N1.
    destruct (String.eqb_spec k "alpha"); [subst; destruct N1; left; reflexivity|].
    destruct (String.eqb_spec k "beta"); [subst; destruct N1; right; left; reflexivity|].
    cbn [dget lookup]. apply dget_del_other. intros ->. apply N2. left. reflexivity.
Qed.

Lemma kip_observed_bounded : forall name fixed long lower upper model kw x, lower <> None \/ upper <> None -> observed kw x ->
  absent ["alpha"; "beta"; "dist"]%string kw ->
  if p then kipping13 p logp true name fixed long lower upper model kw = Err NotImpl else
  exists c hs A B lo hi kw' f,
    kipping13 p logp true name fixed long lower upper model kw = Ok (c :: hs ++ [Potential [] name f], f) /\ no_variable c /\
    kipping_parameters p name fixed long hs A B /\ bound_or lower 0 lo /\ bound_or upper 1 hi /\
    parameters [("alpha"%string, A); ("beta"%string, B)] ["observed"%string] kw kw' /\
    forall e, f e = logp (PDist "Truncated" [("dist"%string, PDist "Beta" kw'); ("lower"%string, PNum lo); ("upper"%string, PNum hi)]) e (x e).
Proof.
  intros name fixed long lower upper model kw x LU O N. unfold kipping13. cbn [negb].
  destruct (kipping_hyper long) as [[[am asd] bm] bsd] eqn:K. destruct (kip_params p name fixed long am asd bm bsd K) as (hs & A & B & -> & HP). cbn [rbind].
  destruct (pop_observed _ _ O) as (v & -> & EV).
  assert (BR : forall (X Y : res (list stmt * (env -> tens))), match lower, upper with None, None => X | _, _ => Y end = Y) by (intros X Y; destruct lower, upper; try reflexivity; destruct LU; contradiction).
  rewrite BR. clear BR. set (lo := opt_num lower 0). set (hi := opt_num upper 1).
  destruct p; [reflexivity|].
  rewrite dmerge_ok by (apply absent_del; intros k I; apply N; destruct I as [<-|[<-|[]]]; cbn; tauto). cbn [rbind].
  unfold truncate_dist. rewrite dmerge_ok. 2:{ intros k [<-|[]]. cbn [map fst]. rewrite dget_app. cbn. rewrite dget_del_other by discriminate. apply N. cbn; tauto. }
  cbn [rbind].
  exists (Cite ["kipping13b"%string] model), hs, A, B, lo, hi. do 2 eexists. split; [reflexivity|]. split; [intros ? ? ? ? Q; discriminate Q|]. split; [exact HP|].
  split; [unfold lo; destruct lower; reflexivity|]. split; [unfold hi; destruct upper; reflexivity|].
  split; [|intro e; cbv beta; rewrite EV; reflexivity]. split.
  - intros k w [E|[E|[]]]; injection E as <- <-; reflexivity.
  - intros k N1 N2. rewrite dget_app, !dget_cons. cbn [map fst] in N1.
    destruct (String.eqb_spec k "alpha"); [subst; destruct N1; left; reflexivity|].
    destruct (String.eqb_spec k "beta"); [subst; destruct N1; right; left; reflexivity|].
    cbn [dget lookup]. apply dget_del_other. intros ->. apply N2. left. reflexivity.
Qed.

Lemma no_model : forall name fixed b lower upper model kw,
  (forall long, kipping13 p logp false name fixed long lower upper model kw = Err TypeErr) /\
  vaneylen19 p logp false name fixed b lower upper model kw = Err TypeErr.
Proof. intros. split; reflexivity. Qed.
End K.
