(** * units.py on the level of objects *)
From Coq Require Import Reals List Bool Arith Lia Lra ZArith.
From Verif Require Import Num Inst M_units M_tensor M_heap Spec_heap Ex_heap L_fl.
Import ListNotations.
Open Scope R_scope.

Lemma hset_same h l o : (l < length h)%nat -> nth_error (hset h l o) l = Some o.
Proof. intro H. unfold hset. rewrite nth_error_app2; rewrite firstn_length_le by lia; [|lia]. rewrite Nat.sub_diag. reflexivity. Qed.
Lemma hset_other h l o m : (l < length h)%nat -> m <> l -> nth_error (hset h l o) m = nth_error h m.
Proof.
  intros H N. unfold hset. destruct (Nat.lt_ge_cases m l) as [L|L].
  - rewrite nth_error_app1 by (rewrite firstn_length_le; lia). clear N H. revert l L. induction m as [|m IH] in h |- *; intros l L; destruct l as [|l]; try lia; destruct h as [|a h]; try reflexivity. cbn. apply IH. lia.
  - rewrite nth_error_app2; rewrite firstn_length_le by lia; [|lia]. destruct (m - l)%nat as [|j] eqn:J; [lia|]. cbn [nth_error].
    clear -J H. assert (m = S l + j)%nat by lia. subst m. clear J. revert l H. induction h as [|a h IH]; intros l H; [cbn in H; lia|]. destruct l as [|l]; [reflexivity|]. cbn [skipn Nat.add nth_error]. apply IH. cbn in H. lia.
Qed.
Lemma lt_some (h : heap) l o : nth_error h l = Some o -> (l < length h)%nat.
Proof. intro E. apply nth_error_Some. congruence. Qed.
Lemma obj_eta (o : obj) : o = {| o_kind := o_kind o; o_val := o_val o; o_unit := o_unit o |}.
Proof. destruct o. reflexivity. Qed.
Lemma alloc_new (h : heap) o : nth_error (h ++ [o]) (length h) = Some o.
Proof. rewrite nth_error_app2 by lia. rewrite Nat.sub_diag. reflexivity. Qed.
Lemma alloc_old (h : heap) o l : (l < length h)%nat -> nth_error (h ++ [o]) l = nth_error h l.
Proof. intro H. apply nth_error_app1. exact H. Qed.

(** what one successful with_unit does when the backend keeps no table *)
Lemma with_unit_ok h l u h' l' : with_unit fresh_constants h l u = Ok (h', l') ->
  exists o, nth_error h l = Some o /\ o_unit o = None /\
  ((o_kind o = Float64 /\ l' = l /\ h' = hset h l {| o_kind := Float64; o_val := o_val o; o_unit := Some u |}) \/
   (o_kind o <> Float64 /\ l' = length h /\ h' = h ++ [{| o_kind := Float64; o_val := o_val o; o_unit := Some u |}])).
Proof.
  unfold with_unit. destruct (nth_error h l) as [o|] eqn:E; [|discriminate]. unfold has_unit. destruct (o_unit o) eqn:EU; [discriminate|].
  unfold as_tensor. destruct (o_kind o) eqn:EK; cbn [fresh_constants alloc]; intro H.
  - rewrite E in H. injection H as <- <-. exists o. rewrite EK. split; [reflexivity|]. split; [exact EU|]. left. auto.
  - rewrite alloc_new in H. injection H as <- <-. exists o. split; [reflexivity|]. split; [exact EU|]. right. split; [congruence|]. split; [reflexivity|].
    unfold hset. rewrite firstn_app, firstn_all, Nat.sub_diag, skipn_app, (skipn_all2 h) by lia. cbn [o_kind o_val o_unit firstn]. rewrite app_nil_r. f_equal. f_equal. replace (S (length h) - length h)%nat with 1%nat by lia. reflexivity.
  - rewrite alloc_new in H. injection H as <- <-. exists o. split; [reflexivity|]. split; [exact EU|]. right. split; [congruence|]. split; [reflexivity|].
    unfold hset. rewrite firstn_app, firstn_all, Nat.sub_diag, skipn_app, (skipn_all2 h) by lia. cbn [o_kind o_val o_unit firstn]. rewrite app_nil_r. f_equal. f_equal. replace (S (length h) - length h)%nat with 1%nat by lia. reflexivity.
Qed.
Lemma pres_refl h : preserved h h. Proof. intros l k v u A. exists u. split; [exact A|reflexivity]. Qed.
Lemma pres_trans a b c : preserved a b -> preserved b c -> preserved a c.
Proof.
  intros P Q l k v u A. destruct (P l k v u A) as (u1 & B & C). destruct (Q l k v u1 B) as (u2 & D & F). exists u2. split; [exact D|]. intro N. specialize (C N). subst u1. apply F. exact N.
Qed.
Lemma pres_alloc (h : heap) o : preserved h (h ++ [o]).
Proof. intros l k v u A. exists u. split; [|reflexivity]. unfold at_loc in *. rewrite alloc_old by exact (lt_some _ _ _ A). exact A. Qed.
Lemma pres_tag h l o u : nth_error h l = Some o -> o_unit o = None -> preserved h (hset h l {| o_kind := o_kind o; o_val := o_val o; o_unit := Some u |}).
Proof.
  intros E N m k v w A. pose proof (lt_some _ _ _ E) as L. unfold at_loc in *. destruct (Nat.eq_dec m l) as [->|NE].
  - rewrite hset_same by exact L. rewrite E in A. injection A as ->. cbn in *. exists (Some u). split; [reflexivity|]. intro Q. contradiction.
  - rewrite hset_other by assumption. exists w. split; [exact A|reflexivity].
Qed.
Lemma step_pres h c h' a : step fresh_constants h c = (h', a) -> preserved h h'.
Proof.
  destruct c as [k v|l u|l|l t]; cbn [step].
  - intro E. injection E as <- <-. apply pres_alloc.
  - destruct (with_unit fresh_constants h l u) as [(h1 & l1)|e] eqn:W; intro E; injection E as <- <-; [|apply pres_refl].
    apply with_unit_ok in W. destruct W as (o & E & N & [(K & -> & ->)|(K & -> & ->)]); [|apply pres_alloc]. rewrite <- K. apply pres_tag; assumption.
  - destruct (nth_error h l); intro E; injection E as <- <-; apply pres_refl.
  - unfold to_unit. destruct (nth_error h l) as [o|]; [|intro E; injection E as <- <-; apply pres_refl]. destruct (o_unit o) as [b|]; [|intro E; injection E as <- <-; apply pres_refl].
    destruct (uto b t); cbn [rbind alloc]; intro E; injection E as <- <-; [apply pres_alloc|apply pres_refl].
Qed.
Theorem run_preserves : forall cs h h' ans, run fresh_constants h cs = (h', ans) -> preserved h h'.
Proof.
  induction cs as [|c cs IH]; intros h h' ans E; cbn [run] in E; [injection E as <- <-; apply pres_refl|].
  destruct (step fresh_constants h c) as [h1 a] eqn:S. destruct (run fresh_constants h1 cs) as [h2 l] eqn:R. injection E as <- <-. exact (pres_trans _ _ _ (step_pres _ _ _ _ S) (IH _ _ _ R)).
Qed.
(** taggings: later ones avoid tagged places *)
Lemma run_taggings : forall cs h h' ans, run fresh_constants h cs = (h', ans) ->
  NoDup (map fst (taggings cs ans)) /\ (forall l u, In (l, u) (taggings cs ans) -> exists v, at_loc h' l Float64 v (Some u)) /\
  (forall l u, In (l, u) (taggings cs ans) -> forall k v w, ~ at_loc h l k v (Some w)).
Proof.
  induction cs as [|c cs IH]; intros h h' ans E; cbn [run] in E; [injection E as <- <-; split; [constructor|split; intros ? ? []]|].
  destruct (step fresh_constants h c) as [h1 a] eqn:S. destruct (run fresh_constants h1 cs) as [h2 l] eqn:R. injection E as <- <-. destruct (IH _ _ _ R) as (ND & T & NT). pose proof (step_pres _ _ _ _ S) as PS. pose proof (run_preserves _ _ _ _ R) as PR.
  assert (NT' : forall l0 u, In (l0, u) (taggings cs l) -> forall k v w, ~ at_loc h l0 k v (Some w)).
  { intros l0 u I k v w A. destruct (PS _ _ _ _ A) as (u' & A' & Q). rewrite Q in A' by discriminate. exact (NT _ _ I _ _ _ A'). }
  destruct c as [k v|m u|m|m t]; try (split; [exact ND|split; [exact T|exact NT']]).
  destruct a as [l0|b|e]; try (split; [exact ND|split; [exact T|exact NT']]). cbn [taggings map fst].
  cbn [step] in S. destruct (with_unit fresh_constants h m u) as [(h1' & l1)|e] eqn:W; [|discriminate]. injection S as -> ->. apply with_unit_ok in W.
  assert (A1 : exists v, at_loc h1 l0 Float64 v (Some u)).
  { destruct W as (o & E & N & [(K & -> & ->)|(K & -> & ->)]); exists (o_val o); unfold at_loc; [apply hset_same; exact (lt_some _ _ _ E)|apply alloc_new]. }
  destruct A1 as (v & A1). split; [|split].
  - constructor; [|exact ND]. intro I. apply in_map_iff in I. destruct I as ((l2 & w) & Q & I). cbn in Q. subst l2. exact (NT _ _ I _ _ _ A1).
  - intros l2 w [Q|I]; [|exact (T _ _ I)]. injection Q as <- <-. destruct (PR _ _ _ _ A1) as (u' & A2 & Q). rewrite Q in A2 by discriminate. exists v. exact A2.
  - intros l2 w [Q|I]; [|exact (NT' _ _ I)]. injection Q as <- <-. intros k v' w' A. unfold at_loc in A. destruct W as (o & E & N & [(K & -> & ->)|(K & -> & ->)]).
    + rewrite E in A. injection A as ->. discriminate.
    + pose proof (lt_some _ _ _ A). lia.
Qed.
Theorem tag_once : forall cs h h' ans, run fresh_constants h cs = (h', ans) ->
  NoDup (map fst (taggings cs ans)) /\ forall l u, In (l, u) (taggings cs ans) -> exists v, at_loc h' l Float64 v (Some u).
Proof. intros cs h h' ans E. destruct (run_taggings _ _ _ _ E) as (A & B & _). split; assumption. Qed.
(** a second with_unit *)
Theorem with_unit_again : forall B h l k v w u, at_loc h l k v (Some w) -> with_unit B h l u = Err TypeErr /\ step B h (CWith l u) = (h, AErr TypeErr).
Proof. intros B h l k v w u A. unfold at_loc in A. cbn [step]. unfold with_unit. rewrite A. split; reflexivity. Qed.
Theorem with_unit_law : forall h l k v u, at_loc h l k v None -> exists h' l',
  with_unit fresh_constants h l u = Ok (h', l') /\ at_loc h' l' Float64 v (Some u) /\ same_but h h' l' /\ l' = match k with Float64 => l | _ => length h end.
Proof.
  intros h l k v u A. unfold at_loc in A. destruct (with_unit fresh_constants h l u) as [(h' & l')|e] eqn:W.
  - exists h', l'. split; [reflexivity|]. apply with_unit_ok in W. destruct W as (o & E & _ & W). rewrite A in E. injection E as <-. cbn in W. destruct W as [(-> & -> & ->)|(K & -> & ->)].
    + split; [apply hset_same; exact (lt_some _ _ _ A)|]. split; [|reflexivity]. intros m N. apply hset_other; [exact (lt_some _ _ _ A)|exact N].
    + split; [apply alloc_new|]. split; [|destruct k; [contradiction|reflexivity|reflexivity]]. intros m N. destruct (Nat.lt_ge_cases m (length h)) as [L|L]; [apply alloc_old; exact L|].
      rewrite (proj2 (nth_error_None h m) L). apply nth_error_None. rewrite app_length. cbn. lia.
  - exfalso. unfold with_unit in W. rewrite A in W. cbn in W. unfold as_tensor in W. destruct k; cbn in W; rewrite ?A, ?alloc_new in W; discriminate.
Qed.
Lemma dim_eqb_spec a b : dim_eqb a b = true <-> a = b.
Proof.
  destruct a as ((x & y) & z), b as ((x' & y') & z'). cbn. rewrite !andb_true_iff, !Z.eqb_eq. split; [intros ((-> & ->) & ->); reflexivity|intro E; injection E as -> -> ->; auto].
Qed.
Theorem to_unit_law : forall h l k v t,
  (at_loc h l k v None -> to_unit h l t = Ok (h, l)) /\
  (forall w, at_loc h l k v (Some w) ->
     (same_dim w t -> exists h', to_unit h l t = Ok (h', length h) /\ same_but h h' (length h) /\
        at_loc h' (length h) Float64 (scaled v (uscale w / uscale t)) None) /\
     (~ same_dim w t -> to_unit h l t = Err UnitErr)).
Proof.
  intros h l k v t. split; [intro A; unfold at_loc in A; unfold to_unit; rewrite A; reflexivity|]. intros w A. unfold at_loc in A. unfold to_unit. rewrite A. cbn [o_unit o_val].
  unfold uto, same_dim. destruct (dim_eqb (udim w) (udim t)) eqn:D.
  - apply dim_eqb_spec in D. split; [intros _|intro N; contradiction]. cbn [rbind alloc]. eexists. split; [reflexivity|]. split; [|apply alloc_new].
    intros m N. destruct (Nat.lt_ge_cases m (length h)) as [L|L]; [apply alloc_old; exact L|]. rewrite (proj2 (nth_error_None h m) L). apply nth_error_None. rewrite app_length. cbn. lia.
  - assert (udim w <> udim t) by (intro Q; apply dim_eqb_spec in Q; congruence). split; [intro Q; contradiction|reflexivity].
Qed.
Theorem round_trip : forall h l k v w t, at_loc h l k v (Some w) -> same_dim w t -> uscale w <> 0 -> uscale t <> 0 -> finite v ->
  exists h1 l1 h2 l2 h3 l3 v', to_unit h l t = Ok (h1, l1) /\ with_unit fresh_constants h1 l1 t = Ok (h2, l2) /\ to_unit h2 l2 w = Ok (h3, l3) /\
    at_loc h3 l3 Float64 v' None /\ ash v' = ash v /\ forall i, aget v' i = aget v i.
Proof.
  intros h l k v w t A D NW NT F. destruct (to_unit_law h l k v t) as [_ T]. destruct (T w A) as [T1 _]. destruct (T1 D) as (h1 & E1 & _ & A1).
  destruct (with_unit_law _ _ _ _ t A1) as (h2 & l2 & E2 & A2 & _ & L2). destruct (to_unit_law h2 l2 Float64 (scaled v (uscale w / uscale t)) w) as [_ T']. destruct (T' t A2) as [T2 _].
  destruct (T2 (eq_sym D)) as (h3 & E3 & _ & A3). exists h1, (length h), h2, l2, h3, (length h2), (scaled (scaled v (uscale w / uscale t)) (uscale t / uscale w)).
  do 4 (split; [assumption|]). split; [reflexivity|]. intro i. cbn [scaled aget]. destruct (F i) as [r ->]. cbn [fmul]. f_equal. field. split; assumption.
Qed.
Theorem table_breaks : ~ (forall B cs h h' ans, run B h cs = (h', ans) -> preserved h h').
Proof.
  intro H. pose (v := mkA (Ok []) (fun _ => Fin 1)). pose (u := {| udim := (1, 0, 0)%Z; uscale := 1 |}). pose (w := {| udim := (0, 1, 0)%Z; uscale := 1 |}).
  specialize (H ex_table [CWith 0%nat w] [{| o_kind := NotTensor; o_val := v; o_unit := None |}; {| o_kind := Float64; o_val := v; o_unit := Some u |}] _ _ eq_refl).
  destruct (H 1%nat Float64 v (Some u) eq_refl) as (u' & A & Q). rewrite Q in A by discriminate. cbn in A. unfold at_loc in A. cbn in A. discriminate.
Qed.
Theorem legacy_reuse : ~ (forall h l k v u h1 l1, at_loc h l k v None -> legacy_units fresh_constants h l (Some u) = Ok (h1, l1) ->
  exists h2 l2, legacy_units fresh_constants h1 l (Some u) = Ok (h2, l2)).
Proof.
  intro H. pose (v := mkA (Ok []) (fun _ => Fin 1)). pose (u := {| udim := (1, 0, 0)%Z; uscale := 1 |}).
  destruct (H [{| o_kind := Float64; o_val := v; o_unit := None |}] 0%nat Float64 v u _ _ eq_refl eq_refl) as (h2 & l2 & E). discriminate.
Qed.
