(** * Reshaping *)
From Coq Require Import Reals List Bool Arith Lia.
From Verif Require Import Num CoreOps Inst CoreFlux M_units M_kepler M_tensor M_limbdark Spec_orbit Spec_array Spec_light.
Import ListNotations.
Local Notation length := List.length.

Lemma inside_cons d s i : inside (d :: s) i -> (i O < d)%nat /\ inside s (fun k => i (S k)).
Proof. intro H. split; [apply (H O); cbn; lia|]. intros k Hk. apply (H (S k)). cbn. lia. Qed.
Lemma inside_cons_ix d s j i : (j < d)%nat -> inside s i -> inside (d :: s) (cons_ix j i).
Proof. intros Hj H k Hk. destruct k; cbn in *; [exact Hj|apply H; lia]. Qed.
Lemma unlin_lin s i : inside s i -> forall k, (k < length s)%nat -> unlin s (lin s i) k = i k.
Proof.
  revert i. induction s as [|d s IH]; intros i Hi k Hk; [cbn in Hk; lia|].
  destruct (inside_cons _ _ _ Hi) as [H0 H1]. cbn [lin unlin].
  assert (E : (if Nat.eqb d 1 then O else i O) = i O) by (destruct (Nat.eqb_spec d 1); lia). rewrite E.
  assert (Hd : d <> O) by lia.
  destruct k as [|k]; cbn [cons_ix].
  - rewrite Nat.mul_comm, Nat.mod_add by exact Hd. apply Nat.mod_small. exact H0.
  - rewrite Nat.mul_comm, Nat.div_add by exact Hd. rewrite (Nat.div_small (i O) d H0), Nat.add_0_l. apply (IH _ H1). cbn in Hk. lia.
Qed.
Lemma lin_bound s i : inside s i -> (lin s i < prod s)%nat.
Proof.
  revert i. induction s as [|d s IH]; intros i Hi; [cbn; lia|].
  destruct (inside_cons _ _ _ Hi) as [H0 H1]. specialize (IH _ H1). change (prod (d :: s)) with (d * prod s)%nat. cbn [lin].
  assert (E : (if Nat.eqb d 1 then O else i O) = i O) by (destruct (Nat.eqb_spec d 1); lia). rewrite E. nia.
Qed.
Lemma unlin_out s l k : (length s <= k)%nat -> unlin s l k = O.
Proof.
  revert l k. induction s as [|d s IH]; intros l k Hk; [reflexivity|]. destruct k as [|k]; cbn in Hk; [lia|]. apply IH. lia.
Qed.
Lemma unlin_inside s l : (l < prod s)%nat -> inside s (unlin s l).
Proof.
  revert l. induction s as [|d s IH]; intros l Hl k Hk; [cbn in Hk; lia|]. change (prod (d :: s)) with (d * prod s)%nat in Hl.
  assert (d <> O) by lia. destruct k as [|k]; cbn [unlin cons_ix nth].
  - apply Nat.mod_upper_bound. assumption.
  - apply IH; [|cbn in Hk; lia]. apply Nat.div_lt_upper_bound; assumption.
Qed.

Lemma sqz_unlin s l k : (k < length s)%nat -> sqz_ix s (unlin (squeezed s) l) k = unlin s l k.
Proof.
  revert l k. induction s as [|d s IH]; intros l k Hk; [cbn in Hk; lia|].
  unfold squeezed. cbn [filter]. fold (squeezed s). destruct (Nat.eqb_spec d 1) as [->|Hd]; cbn [negb].
  - destruct k as [|k]; [reflexivity|]. cbn [unlin cons_ix]. rewrite Nat.div_1_r, <- IH by (cbn in Hk; lia).
    unfold sqz_ix. cbn [nth_error sqz_count]. reflexivity.
  - destruct k as [|k]; cbn [unlin cons_ix].
    + unfold sqz_ix. cbn [nth_error sqz_count]. destruct (Nat.eqb_spec d 1); [contradiction|reflexivity].
    + rewrite <- IH by (cbn in Hk; lia). unfold sqz_ix. cbn [nth_error sqz_count].
      destruct (Nat.eqb_spec d 1); [contradiction|]. reflexivity.
Qed.
Lemma prod_squeezed s : prod (squeezed s) = prod s.
Proof.
  induction s as [|d s IH]; [reflexivity|]. unfold squeezed. cbn [filter]. fold (squeezed s).
  destruct (Nat.eqb_spec d 1) as [->|Hd]; cbn [negb]; change (prod (?a :: ?b)) with (a * prod b)%nat; cbn [prod fold_right]; fold (prod s); fold (prod (squeezed s)); rewrite IH; lia.
Qed.

(** squeezing does not change the order of the elements *)
Lemma flat_squeezed {A} (X : arr A) s i : ash X = Ok s -> inside s i ->
  exists i', (forall k, (k < length s)%nat -> i' k = i k) /\ flat (asqz X) (lin s i) = aget X i'.
Proof.
  intros E Hi. exists (sqz_ix s (unlin (squeezed s) (lin s i))). split.
  - intros k Hk. rewrite sqz_unlin by exact Hk. apply unlin_lin; assumption.
  - unfold flat, asqz. cbn [ash aget]. rewrite E. cbn [rmap]. reflexivity.
Qed.
Lemma reshape_at {A} (X : arr A) s s' i : ash X = Ok s -> aget (areshape (Ok s') X) i = flat X (lin s' i).
Proof. intro E. unfold areshape, flat. rewrite E. reflexivity. Qed.
Lemma reshape_sh {A} (X : arr A) s s' : ash X = Ok s -> prod s = prod s' -> ash (areshape (Ok s') X) = Ok s'.
Proof. intros E H. unfold areshape. rewrite E. cbn [ash]. rewrite H, Nat.eqb_refl. reflexivity. Qed.
Lemma reshape_bad {A} (X : arr A) s s' : ash X = Ok s -> prod s <> prod s' -> ash (areshape (Ok s') X) = Err ShapeErr.
Proof. intros E H. unfold areshape. rewrite E. cbn [ash]. destruct (Nat.eqb_spec (prod s) (prod s')); [contradiction|reflexivity]. Qed.
