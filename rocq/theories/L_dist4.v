(** * Keyword forwarding and totality of the distributions *)
From Coq Require Import Reals List Bool Arith ZArith String Lra Lia.
From Verif Require Import Num CoreOps Inst M_kwargs M_tensor M_limbdark M_dist Spec_dist L_dist1 L_dist2 L_dist3.
Import ListNotations.
Local Notation length := List.length.
Open Scope R_scope.

Lemma angle_keywords : forall p name reg kw ss out, angle p name reg kw = Ok (ss, out) ->
  forall sc n c kw', In (Free sc n c kw') ss -> exists start, forwarded p [] (PNum start) kw kw'.
Proof.
  intros p name reg kw ss out E sc n c kw' H. destruct (angle_form _ _ _ _ _ _ E) as (kw1 & kw2 & -> & _ & z & v & _ & _ & F1 & F2).
  destruct H as [H|[H|H]].
  - injection H as <- <- <- <-. eexists; exact F1.
  - injection H as <- <- <- <-. eexists; exact F2.
  - assert (V := angle_pot_novar name reg). rewrite Forall_forall in V. destruct (V _ H _ _ _ _ eq_refl).
Qed.
Lemma disk_keywords : forall p nx ny kw ss xy, unit_disk p nx ny kw = Ok (ss, xy) ->
  forall sc n c kw', In (Free sc n c kw') ss -> exists start, forwarded p (between (-1) 1) (PNum start) kw kw'.
Proof.
  intros p nx ny kw ss [x y] E sc n c kw' H.
  destruct (disk_form _ _ _ _ _ _ _ E) as (kw1 & kw2 & f & -> & _ & _ & _ & s & z & v & v0 & v1 & _ & _ & _ & _ & _ & F1 & F2).
  destruct H as [H|[H|[H|[H|[]]]]]; try discriminate H; injection H as <- <- <- <-; eexists; eassumption.
Qed.
Lemma quad_keywords : forall p name kw ss out, quad_limb_dark p name kw = Ok (ss, out) ->
  forall sc n c kw', In (Free sc n c kw') ss -> exists start, forwarded p (between 0 1) (PNum start) kw kw'.
Proof.
  intros p name kw ss out E sc n c kw' H.
  destruct (quad_form _ _ _ _ _ E) as (kw1 & kw2 & -> & _ & u & u1 & u2 & _ & _ & _ & F1 & F2).
  destruct H as [H|[H|[H|[H|[]]]]]; try discriminate H; injection H as <- <- <- <-; eexists; eassumption.
Qed.
Lemma impact_keywords : forall p name ror kw ss out, impact_parameter p name ror kw = Ok (ss, out) ->
  forall sc n c kw', In (Free sc n c kw') ss -> exists start, forwarded p (shape_added p ror kw ++ between 0 1) (PNum start) kw kw'.
Proof.
  intros p name ror kw ss out E sc n c kw' H. destruct (impact_form _ _ _ _ _ _ E) as (kw1 & -> & _ & bh & b2 & _ & _ & F).
  destruct H as [H|[H|[]]]; try discriminate H; injection H as <- <- <- <-; eexists; eassumption.
Qed.

Lemma row_ok (x : tens) (d : shape) m n : ash x = Ok (d ++ [m]) -> (n < m)%nat -> exists v, row x n = Ok v.
Proof.
  intros E H. unfold row. rewrite E. destruct (d ++ [m])%list as [|a t] eqn:Q; [destruct d; discriminate|]. rewrite <- Q, last_last.
  apply Nat.ltb_lt in H. rewrite H. eexists; reflexivity.
Qed.
Lemma start_value kw v0 (v : tens) : requested kw (PNum v) \/ (not_requested kw /\ v = v0) -> num_of (fst (pop_initval (PNum v0) kw)) = Ok v.
Proof. intros [H|[H ->]]; [rewrite (pop_requested _ _ _ H)|rewrite (pop_default _ _ H)]; reflexivity. Qed.
Lemma disk_total : forall p nx ny kw s, shape_is kw s ->
  not_requested kw \/ (exists v d m, requested kw (PNum v) /\ ash v = Ok (d ++ [m]) /\ (2 <= m)%nat) ->
  exists ss xy, unit_disk p nx ny kw = Ok (ss, xy).
Proof.
  intros p nx ny kw s HS HV. unfold unit_disk. rewrite (shape_tuple _ _ HS). cbn [rbind np_zeros].
  rewrite (surjective_pairing (pop_initval _ kw)).
  match goal with |- context [pop_initval (PNum ?z) kw] =>
    assert (V : exists v d m, num_of (fst (pop_initval (PNum z) kw)) = Ok v /\ ash v = Ok (d ++ [m]) /\ (2 <= m)%nat) end.
  { destruct HV as [H|(v & d & m & H & Hv & Hm)].
    - do 2 eexists. exists 2%nat. split; [apply start_value; right; split; [exact H|reflexivity]|]. split; [reflexivity|lia].
    - exists v, d, m. split; [apply start_value; left; exact H|]. split; assumption. }
  destruct V as (v & d & m & -> & Hv & Hm). cbn [rbind].
  destruct (row_ok v d m 0 Hv ltac:(lia)) as (v0 & ->). cbn [rbind]. destruct (row_ok v d m 1 Hv ltac:(lia)) as (v1 & ->). cbn [rbind].
  do 2 eexists. reflexivity.
Qed.
Lemma quad_total : forall p name kw,
  not_requested kw \/ (exists v d m, requested kw (PNum v) /\ ash v = Ok (d ++ [m]) /\ (2 <= m)%nat) ->
  exists ss out, quad_limb_dark p name kw = Ok (ss, out).
Proof.
  intros p name kw HV. unfold quad_limb_dark.
  rewrite (surjective_pairing (pop_initval _ kw)).
  match goal with |- context [pop_initval (PNum ?z) kw] =>
    assert (V : exists v d m, num_of (fst (pop_initval (PNum z) kw)) = Ok v /\ ash v = Ok (d ++ [m]) /\ (2 <= m)%nat) end.
  { destruct HV as [H|(v & d & m & H & Hv & Hm)].
    - eexists. exists [], 2%nat. split; [apply start_value; right; split; [exact H|reflexivity]|]. split; [reflexivity|lia].
    - exists v, d, m. split; [apply start_value; left; exact H|]. split; assumption. }
  destruct V as (v & d & m & -> & Hv & Hm). cbn [rbind].
  destruct (row_ok v d m 0 Hv ltac:(lia)) as (v0 & ->). cbn [rbind]. destruct (row_ok v d m 1 Hv ltac:(lia)) as (v1 & ->). cbn [rbind].
  do 2 eexists. reflexivity.
Qed.
Lemma impact_total : forall p name ror kw s sr, ash ror = Ok sr -> shape_is kw s ->
  not_requested kw \/ (exists v, requested kw (PNum v)) ->
  exists ss out, impact_parameter p name ror kw = Ok (ss, out).
Proof.
  intros p name ror kw s sr HR HS HV. unfold impact_parameter. rewrite (surjective_pairing (pop_initval _ kw)).
  assert (V : exists v, num_of (fst (pop_initval (PNum (alit (Fin (1 / 2)))) kw)) = Ok v).
  { destruct HV as [H|(v & H)]; eexists; apply start_value; [right; split; [exact H|reflexivity]|left; exact H]. }
  destruct V as (v & ->). cbn [rbind]. rewrite pop_rest. destruct p; [cbn [rbind]; do 2 eexists; reflexivity|].
  rewrite HR. cbn [rbind]. dsolve. destruct HS as [[H ->]|[H|(n & H & ->)]]; rewrite H; dsolve; rewrite ?H; cbn [tuple_of rbind]; do 2 eexists; reflexivity.
Qed.

(** a starting value that is not a pair is an error *)
Lemma quad_error : forall p name kw v, requested kw (PNum v) -> ash v = Ok [] -> quad_limb_dark p name kw = Err IndexErr.
Proof.
  intros p name kw v H E. unfold quad_limb_dark. rewrite (surjective_pairing (pop_initval _ kw)), (start_value kw _ v (or_introl H)). cbn [rbind].
  unfold row. rewrite E. reflexivity.
Qed.
