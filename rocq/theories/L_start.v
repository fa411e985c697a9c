(** * impact_parameter: the shape of the starting value *)
From Coq Require Import Reals List String Arith Lra Lia.
From Verif Require Import Num CoreOps Inst M_dist Spec_dist L_dist1 L_dist3.
Import ListNotations.
Open Scope R_scope.

Lemma impact_shape : forall name ror kw ss out v sv sr s, impact_parameter false name ror kw = Ok (ss, out) -> requested kw (PNum v) -> ash v = Ok sv -> ash ror = Ok sr ->
  (dget "shape" kw = None /\ s = sr) \/ dget "shape" kw = Some (PShape s) \/ (exists n, dget "shape" kw = Some (PInt n) /\ s = [n]) ->
  forall sc n c kw', In (Free sc n c kw') ss -> exists start, dget "initval" kw' = Some (PNum start) /\
    (bc sv s = Some s -> ash start = match bc s sr with Some s' => Ok s' | None => Err ShapeErr end) /\ (bc sv s <> Some s -> ash start = Err ShapeErr).
Proof.
  intros name ror kw ss out v sv sr s E Rq Sv Sr Hs sc n c kw' HI. unfold impact_parameter in E.
  destruct (pop_initval _ kw) as [iv kw0] eqn:EP. assert (Q := pop_requested (PNum (alit (Fin (1 / 2)))) kw _ Rq). assert (K := pop_rest (PNum (alit (Fin (1 / 2)))) kw). rewrite EP in Q, K. cbn [fst snd] in Q, K. subst iv kw0.
  cbn [num_of rbind] in E. rewrite Sr in E. cbn [rbind] in E.
  assert (GS : dget "shape" (ddel "initval" (ddel "testval" kw)) = dget "shape" kw) by (dsolve; reflexivity). rewrite GS in E.
  assert (HB : exists kw2, ss = [Free [] ("__" ++ name ++ "_impact_parameter")%string "Uniform" (with_initval false (dset "initval" (PNum (broadcast_to v s / (nlit 1 + ror))%num) kw2)); Determ [] name out]).
  { destruct Hs as [[H1 H2]|[H1|(k & H1 & H2)]]; rewrite H1 in E; try rewrite GS, H1 in E; try rewrite dget_set_same in E; cbn [tuple_of rbind] in E; try subst s; injection E as <- <-; eexists; reflexivity. }
  destruct HB as (kw2 & ->). destruct HI as [HI|[HI|[]]]; [|discriminate HI]. injection HI as _ _ _ <-.
  match goal with |- context [with_initval false ?d] => destruct (with_initval_spec false d _ (dget_set_same _ _ _)) as (W & _) end. eexists. split; [exact W|].
  cbn [ndiv nadd nlit NumT amap2 broadcast_to ash alit]. unfold amap2, broadcast_to. cbn [ash]. rewrite Sv, Sr. cbn.
  split; intro H.
  - rewrite H. destruct (list_eq_dec Nat.eq_dec s s) as [_|c0]; [|elim c0; reflexivity]. cbn. destruct (bc s sr); reflexivity.
  - destruct (bc sv s) as [s0|]; [|reflexivity]. destruct (list_eq_dec Nat.eq_dec s0 s) as [c0|_]; [elim H; rewrite c0; reflexivity|]. reflexivity.
Qed.
