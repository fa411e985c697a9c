(** * Distributions: keyword dictionaries *)
From Coq Require Import Reals List Bool Arith ZArith String Lra Lia FunctionalExtensionality.
From Verif Require Import Num CoreOps Inst M_kwargs M_tensor M_limbdark M_dist Spec_dist.
Import ListNotations.
Local Notation length := List.length.
Open Scope R_scope.

Lemma dget_del_same k d : dget k (ddel k d) = None.
Proof.
  unfold dget, ddel. induction d as [|[m v] d IH]; [reflexivity|]. cbn [filter fst].
  destruct (String.eqb_spec m k); cbn [negb]; [exact IH|]. cbn [lookup]. destruct (String.eqb_spec k m); [congruence|exact IH].
Qed.
Lemma dget_del_other k k' d : k <> k' -> dget k (ddel k' d) = dget k d.
Proof.
  intro N. unfold dget, ddel. induction d as [|[m v] d IH]; [reflexivity|]. cbn [filter fst].
  destruct (String.eqb_spec m k'); cbn [negb lookup].
  - destruct (String.eqb_spec k m); [congruence|exact IH].
  - destruct (String.eqb_spec k m); [reflexivity|exact IH].
Qed.
Lemma dget_set_same k v d : dget k (dset k v d) = Some v.
Proof. unfold dget, dset. cbn [lookup]. rewrite String.eqb_refl. reflexivity. Qed.
Lemma dget_set_other k k' v d : k <> k' -> dget k (dset k' v d) = dget k d.
Proof.
  intro N. unfold dget at 1, dset. cbn [lookup]. destruct (String.eqb_spec k k'); [contradiction|]. apply dget_del_other. exact N.
Qed.

Ltac dsolve := repeat first
  [ rewrite dget_set_same | rewrite dget_del_same
  | rewrite dget_set_other by (first [assumption | congruence | discriminate])
  | rewrite dget_del_other by (first [assumption | congruence | discriminate]) ].

Lemma with_initval_spec p kw v : dget "initval" kw = Some v -> forwarded p [] v kw (with_initval p kw).
Proof.
  intro E. unfold with_initval, dpop. dsolve. rewrite E. unfold forwarded, start_keyword, wrong_keyword.
  destruct p; (split; [apply dget_set_same|split; [dsolve; reflexivity|split; [intros ? ? []|]]]); intros k N1 N2 _; dsolve; reflexivity.
Qed.
Lemma with_initval_only p kw v : requested kw v -> forwarded p [] v kw (with_initval p kw).
Proof.
  intros [E|[E1 E2]]; [apply with_initval_spec; exact E|].
  unfold with_initval, dpop. dsolve. rewrite E1, E2. unfold forwarded, start_keyword, wrong_keyword.
  destruct p; (split; [apply dget_set_same|split; [dsolve; reflexivity|split; [intros ? ? []|]]]); intros k N1 N2 _; dsolve; reflexivity.
Qed.
Lemma pop_requested d kw v : requested kw v -> fst (pop_initval d kw) = v.
Proof. intros [E|[E1 E2]]; unfold pop_initval, dpop; cbn [fst]; rewrite dget_del_other by discriminate; [rewrite E|rewrite E1, E2]; reflexivity. Qed.
Lemma pop_default d kw : not_requested kw -> fst (pop_initval d kw) = d.
Proof. intros [E1 E2]. unfold pop_initval, dpop. cbn [fst]. rewrite dget_del_other by discriminate. rewrite E1, E2. reflexivity. Qed.
Lemma pop_rest d kw : snd (pop_initval d kw) = ddel "initval" (ddel "testval" kw).
Proof. reflexivity. Qed.
Lemma forwarded_plain p d start kw : forwarded p [] start kw (with_initval p (dset "initval" start (snd (pop_initval d kw)))).
Proof.
  destruct (with_initval_spec p (dset "initval" start (snd (pop_initval d kw))) start (dget_set_same _ _ _)) as (F1 & F2 & F3 & F4).
  do 2 (split; [assumption|]). split; [intros ? ? []|]. intros k N1 N2 _. rewrite F4; [|assumption|assumption|intros []].
  rewrite pop_rest. dsolve. reflexivity.
Qed.
Lemma forwarded_bounds p d start lo hi kw :
  forwarded p (between lo hi) start kw
    (with_initval p (dset "initval" start (dset "upper" (PNum (alit (Fin hi))) (dset "lower" (PNum (alit (Fin lo))) (snd (pop_initval d kw)))))).
Proof.
  match goal with |- forwarded _ _ _ _ (with_initval _ (dset _ _ ?K)) =>
    destruct (with_initval_spec p (dset "initval" start K) start (dget_set_same _ _ _)) as (F1 & F2 & F3 & F4) end.
  do 2 (split; [assumption|]). split.
  - intros k v [E|[E|[]]]; injection E as <- <-; (rewrite F4; [|discriminate|discriminate|intros []]); dsolve; reflexivity.
  - intros k N1 N2 N3. rewrite F4; [|assumption|assumption|intros []].
    assert (k <> "lower"%string /\ k <> "upper"%string) as [N4 N5] by (split; intro Q; subst k; apply N3; cbn; tauto).
    rewrite pop_rest. dsolve. reflexivity.
Qed.
Lemma not_free_pot sc n f : no_variable (Potential sc n f). Proof. intros ? ? ? ?. discriminate. Qed.
Lemma not_free_det sc n f : no_variable (Determ sc n f). Proof. intros ? ? ? ?. discriminate. Qed.
Lemma shape_zeros kw s : shape_is kw s -> exists z, np_zeros (match dget "shape" kw with Some s => s | None => PShape [] end) = Ok z /\ ash z = Ok s /\ forall i, aget z i = Fin 0.
Proof.
  intros [[E ->]|[E|(n & E & ->)]]; rewrite E; eexists; (split; [reflexivity|split; reflexivity]).
Qed.
Lemma shape_tuple kw s : shape_is kw s -> tuple_of (match dget "shape" kw with Some s => s | None => PShape [] end) = Ok s.
Proof. intros [[E ->]|[E|(n & E & ->)]]; rewrite E; reflexivity. Qed.
Lemma string_app_inj_l (a b c : string) : (a ++ b)%string = (a ++ c)%string -> b = c.
Proof. induction a as [|x a IH]; cbn; intro H; [exact H|]. injection H as H. apply IH. exact H. Qed.
