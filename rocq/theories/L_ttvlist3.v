(** * The lists given to TTVOrbit: statements and examples (C107) *)
From Coq Require Import Reals List Bool Arith ZArith Lra Lia Psatz Sorted String.
From Verif Require Import Num CoreOps Inst M_units M_kepler M_kwargs M_fin M_tensor M_ttv Spec_orbit Spec_params Spec_array Spec_ttv Spec_ttvlist
  L_real L_params3 L_shape L_array L_ttv1 L_ttv2 L_ttv3 L_ttv4 L_ttv6 L_ttvlab L_ttvlist L_ttvlist2 L_ptransit Ex_orbit Ex_system L_transit6.
Import ListNotations.
Open Scope R_scope.
Local Notation length := List.length.

Lemma ttv_accepted : forall k ttvs times inds kw o n n', kep_call k kw = Ok o -> has_entries (o_period o) n -> has_entries (o_t0 o) n' ->
  ((exists o', ttv_init k (targs_of (Some ttvs) times inds kw) = Ok o') <->
   (List.length (labels_of ttvs inds) = List.length ttvs /\ (List.length ttvs <= n)%nat /\ (List.length ttvs <= n')%nat) /\
   forall i z l, nth_error (labels_of ttvs inds) i = Some z -> nth_error ttvs i = Some l -> fits_labels z l).
Proof. intros k ttvs times inds kw o n n' Ho Hn Hn'. exact (accepted k ttvs times inds kw o n n' Ho Hn Hn'). Qed.
Lemma ttv_default_labels : forall k ttvs times kw o n n', kep_call k kw = Ok o -> has_entries (o_period o) n -> has_entries (o_t0 o) n' ->
  ((exists o', ttv_init k (targs_of (Some ttvs) times None kw) = Ok o') <->
   (List.length ttvs <= n)%nat /\ (List.length ttvs <= n')%nat /\ forall l, In l ttvs -> l <> []).
Proof.
  intros k ttvs times kw o n n' Ho Hn Hn'. rewrite (ttv_accepted k ttvs times None kw o n n' Ho Hn Hn'). cbn [labels_of]. rewrite map_length. split.
  - intros [(_ & A & B) F]. split; [exact A|]. split; [exact B|]. intros l Hl ->. apply In_nth_error in Hl. destruct Hl as (i & Hi).
    destruct (F i [] [] ltac:(rewrite nth_error_map, Hi; reflexivity) Hi) as [_ (m & [] & _)].
  - intros (A & B & C). split; [auto|]. intros i z l Hz Hl. rewrite nth_error_map, Hl in Hz. cbn in Hz. injection Hz as <-.
    assert (Hne := C l (nth_error_In _ _ Hl)). split; [left; rewrite map_length, seq_length; reflexivity|].
    assert (L : (0 < List.length l)%nat) by (destruct l; [congruence|cbn; lia]).
    exists (Z.of_nat (List.length l - 1)). split; [apply in_map, in_seq; lia|]. split; [lia|]. intros y Hy. apply in_map_iff in Hy. destruct Hy as (q & <- & Hq). apply in_seq in Hq. lia.
Qed.
Lemma ttv_not_enough : forall k ttvs times inds kw o n n', kep_call k kw = Ok o -> has_entries (o_period o) n -> has_entries (o_t0 o) n' ->
  (forall i z l, nth_error (labels_of ttvs inds) i = Some z -> nth_error ttvs i = Some l -> fits_labels z l) ->
  ~ (List.length (labels_of ttvs inds) = List.length ttvs /\ (List.length ttvs <= n)%nat /\ (List.length ttvs <= n')%nat) ->
  ttv_init k (targs_of (Some ttvs) times inds kw) = Err IndexErr.
Proof. intros k ttvs times inds kw o n n' Ho Hn Hn'. exact (not_enough k ttvs times inds kw o n n' Ho Hn Hn'). Qed.
Lemma ttv_label_errors : forall k ttvs times inds kw o n n' e, kep_call k kw = Ok o -> has_entries (o_period o) n -> has_entries (o_t0 o) n' ->
  List.length (labels_of ttvs inds) = List.length ttvs -> (List.length ttvs <= n)%nat -> (List.length ttvs <= n')%nat ->
  (forall i z l, nth_error (labels_of ttvs inds) i = Some z -> nth_error ttvs i = Some l -> fits_labels z l \/ label_error z l e) ->
  (exists i z l, nth_error (labels_of ttvs inds) i = Some z /\ nth_error ttvs i = Some l /\ label_error z l e) ->
  ttv_init k (targs_of (Some ttvs) times inds kw) = Err e.
Proof. intros k ttvs times inds kw o n n' e Ho Hn Hn' H1 H2 H3. exact (enough_error k ttvs times inds kw o n n' Ho Hn Hn' e (conj H1 (conj H2 H3))). Qed.

(** ** transit_times *)
Lemma fit_same l l' i tt : (i < length l)%nat -> fit_planet (Some (l ++ l')) i tt = fit_planet (Some l) i tt.
Proof. intro H. unfold fit_planet, lix. rewrite nth_error_app1 by exact H. reflexivity. Qed.
Lemma imap_ext {A C} (f g : nat -> A -> res C) l : (forall i a, nth_error l i = Some a -> f i a = g i a) -> imap f l = imap g l.
Proof.
  intro H. unfold imap. f_equal. apply map_ext_in. intros [i a] Hp. apply In_nth_error in Hp. destruct Hp as (q & Hq). rewrite combine_nth_error in Hq.
  destruct (nth_error l q) as [c|] eqn:E; [|discriminate Hq]. cbn in Hq. injection Hq as <- <-. apply (H q c E).
Qed.
Lemma ttv_times_surplus : forall k times l l' kw, List.length l = List.length times ->
  ttv_init k (targs_of None (Some times) (Some (l ++ l')) kw) = ttv_init k (targs_of None (Some times) (Some l) kw).
Proof.
  intros k times l l' kw L. unfold ttv_init. cbn [ta_ttvs ta_times ta_inds ta_kw targs_of].
  rewrite (imap_ext (fit_planet (Some (l ++ l'))) (fit_planet (Some l)) times); [reflexivity|].
  intros i a Ha. apply nth_error_some_lt in Ha. apply fit_same. lia.
Qed.
Lemma fit_total z (tt : list fl) : length z = length tt -> exists f, ttv_fit z tt = Ok f.
Proof.
  intro L. unfold ttv_fit. rewrite lmap2_len by (rewrite map_length; exact L). cbn [rbind]. rewrite lmap2_len by (rewrite !map_length; symmetry; exact L). eexists. reflexivity.
Qed.
Lemma ttv_times_missing : forall k times l kw, (List.length l < List.length times)%nat ->
  (forall i z tt, nth_error l i = Some z -> nth_error times i = Some tt -> List.length z = List.length tt) ->
  ttv_init k (targs_of None (Some times) (Some l) kw) = Err IndexErr.
Proof.
  intros k times l kw L F. unfold ttv_init. cbn [ta_ttvs ta_times ta_inds ta_kw targs_of].
  rewrite (imap_err (fit_planet (Some l)) times IndexErr); [reflexivity| |].
  - intros i tt Ht. unfold fit_planet. destruct (nth_error l i) as [z|] eqn:Ez.
    + left. rewrite (lix_some _ _ _ Ez). cbn [rbind]. destruct (fit_total z tt (F i z tt Ez Ht)) as (f & ->). eexists. reflexivity.
    + right. apply nth_error_None in Ez. rewrite (lix_none _ _ Ez). reflexivity.
  - destruct (nth_error times (length l)) as [tt|] eqn:Et; [|apply nth_error_None in Et; lia]. exists (length l), tt. split; [exact Et|].
    unfold fit_planet. rewrite lix_none by lia. reflexivity.
Qed.

(** ** Fewer lists than planets *)
Lemma ttv_one_list : forall k n N o os tts t ts, consts_ok k -> short_system k n 1 o os tts -> is_vector N t ->
  (forall m, (m < N)%nat -> aget t (at_time m) = Fin (ts m)) ->
  exists v : nat -> R, (forall m, (m < N)%nat -> nearest (tts 0%nat) (ts m) (v m)) /\ forall b,
   is_table3 n N (tpos k o b t None false) (fun m j => fin3 (pos k (os j) b (o_t0 (os j) + (ts m - v m)) None false)) /\
   is_table3 n N (tvel o b t) (fun m j => fin3 (vel (os j) b (o_t0 (os j) + (ts m - v m)))).
Proof.
  intros k n N o os tts t ts kok S Ht Hts. exists (stv o ts). split; [intros m _; apply (stv_near k n 1 o os tts ts S eq_refl)|].
  intro b. split; [apply (stpos_table k n 1 N o os tts t ts kok S Ht eq_refl Hts)|apply (stvel_table k n 1 N o os tts t ts kok S Ht eq_refl Hts)].
Qed.
Lemma ttv_several_lists : forall k n m N o os tts t b, consts_ok k -> short_system k n m o os tts -> (2 <= m)%nat -> is_vector N t ->
  let bad (v : tens * tens * tens) := ash (fst (fst v)) = Err ShapeErr /\ ash (snd (fst v)) = Err ShapeErr /\ ash (snd v) = Err ShapeErr in
  bad (tpos k o b t None false) /\ bad (tvel o b t).
Proof. intros k n m N o os tts t b kok S Hm Ht. exact (no_motion k n m N o os tts t kok S Ht ltac:(lia) b). Qed.

(** ** Examples *)
Lemma ex_tsystem3 : exists os, system ek 3 (ex_targs 3 ex_bs) (fun j => ex_b_args (ex_bs j)) os.
Proof.
  destruct (ex_b 0 ltac:(lra)) as (o0 & A1 & A2 & _). destruct (ex_b 2 ltac:(lra)) as (o1 & B1 & B2 & _).
  exists (fun j => match j with O => o0 | _ => o1 end). constructor.
  - lia.
  - constructor; cbn; try exact I; try reflexivity; first [apply vector_pp|apply scalar_pp|left; reflexivity].
  - intros [|[|[|j]]] Hj; [| | |lia]; reflexivity.
  - intros [|[|[|j]]] Hj; [| | |lia]; assumption.
  - intros [|[|[|j]]] Hj; [| | |lia]; assumption.
  - intros j Hj; left; reflexivity.
Qed.
Definition ex_one : targs := targs_of (Some [[Fin 0; Fin (1 / 2); Fin 0]]) None (Some [[0; 1; 3]%Z]) (ex_tkw 3 ex_bs).
Definition ex_two : targs := targs_of (Some ex_ttvs) None (Some ex_inds) (ex_tkw 3 ex_bs).
Lemma ex_short_gen x m ttvs inds tts : x = targs_of (Some ttvs) None (Some inds) (ex_tkw 3 ex_bs) -> (0 < m < 3)%nat ->
  (exists o, ttv_init ek x = Ok o /\ kep_call ek (ex_tkw 3 ex_bs) = Ok (tt_orbit o) /\ tt_period o = vector 3 (fun _ => 10) /\
     tt_all o = map (fun j => map Fin (tts j)) (seq 0 m)) ->
  (forall j, (j < m)%nat -> StronglySorted Rlt (tts j)) ->
  exists o os, consts_ok ek /\ ttv_init ek x = Ok o /\ short_system ek 3 m o os tts /\ is_vector 3 (vector 3 INR) /\
   (forall m, (m < 3)%nat -> aget (vector 3 INR) (at_time m) = Fin (INR m)).
Proof.
  intros -> Hm (o & H & K & P & A) S. destruct ex_tsystem3 as (os & Hos). exists o, os.
  assert (Q : kep_call ek (ex_tkw 3 ex_bs) = kep_init ek (ex_targs 3 ex_bs)) by reflexivity. rewrite Q in K.
  split; [apply ek_ok|]. split; [exact H|]. split.
  - constructor.
    + eexists; exact H.
    + exists (ex_targs 3 ex_bs), (fun j => ex_b_args (ex_bs j)). auto.
    + exact Hm.
    + exact A.
    + exact S.
    + exists (fun _ => 10). split; [|intros; lra]. rewrite P. apply vector_values.
  - split; [apply vector_is|apply vector_at].
Qed.
Ltac short x := let K := fresh in let E1 := fresh in let E2 := fresh in
  destruct (kep_call ek (ex_tkw 3 ex_bs)) as [ob|] eqn:K; [|discriminate K];
    assert (E1 : o_t0 ob = vector 3 (fun _ => 2)) by (apply (call_t0 ek _ _ _ K); reflexivity);
    assert (E2 : o_period ob = vector 3 (fun _ => 10)) by (apply (call_period ek _ _ _ K); reflexivity); clear - E1 E2 K;
    unfold ttv_init; cbn [ta_ttvs ta_inds ta_times ta_kw targs_of x]; rewrite K; clear K; cbn [rbind]; unfold ttv_finish; rewrite E1, E2;
    eexists; split; [reflexivity|]; split; [reflexivity|]; split; [reflexivity|]; cbn; unfold Pos.to_nat; cbn; repeat match goal with |- _ :: _ = _ :: _ => apply f_equal2 | |- Fin _ = Fin _ => apply f_equal end; try reflexivity; lra.
Lemma one_list_example : exists o os, consts_ok ek /\ ttv_init ek ex_one = Ok o /\ short_system ek 3 1 o os ex_tts /\ is_vector 3 (vector 3 INR) /\
   (forall m, (m < 3)%nat -> aget (vector 3 INR) (at_time m) = Fin (INR m)).
Proof.
  apply (ex_short_gen ex_one 1 [[Fin 0; Fin (1 / 2); Fin 0]] [[0; 1; 3]%Z] ex_tts eq_refl); [lia| |].
  - short ex_one.
  - intros [|j] Hj; [|lia]; cbn; ssort.
Qed.
Lemma several_lists_example : exists o os, consts_ok ek /\ ttv_init ek ex_two = Ok o /\ short_system ek 3 2 o os ex_tts /\ is_vector 3 (vector 3 INR) /\
   (forall m, (m < 3)%nat -> aget (vector 3 INR) (at_time m) = Fin (INR m)).
Proof.
  apply (ex_short_gen ex_two 2 ex_ttvs ex_inds ex_tts eq_refl); [lia| |].
  - short ex_two.
  - intros [|[|j]] Hj; [| |lia]; cbn; ssort.
Qed.
Lemma lists_example : exists o, kep_call ek (ex_tkw 2 ex_bs) = Ok o /\ has_entries (o_period o) 2 /\ has_entries (o_t0 o) 2 /\
  (List.length (labels_of ex_ttvs (Some ex_inds)) = List.length ex_ttvs /\ (List.length ex_ttvs <= 2)%nat) /\
  (forall i z l, nth_error (labels_of ex_ttvs (Some ex_inds)) i = Some z -> nth_error ex_ttvs i = Some l -> fits_labels z l) /\
  fits_labels [0; 1; 3]%Z [Fin 1] /\ label_error [0; 1; 3]%Z [Fin 1; Fin 2] ShapeErr /\ label_error [] [Fin 1] ValueError /\
  label_error [0; -3; 1]%Z [Fin 1; Fin 2; Fin 3] IndexErr.
Proof.
  destruct (kep_call ek (ex_tkw 2 ex_bs)) as [ob|] eqn:K; [|discriminate K]. exists ob. split; [reflexivity|].
  assert (E1 : o_t0 ob = vector 2 (fun _ => 2)) by (apply (call_t0 ek _ _ _ K); reflexivity).
  assert (E2 : o_period ob = vector 2 (fun _ => 10)) by (apply (call_period ek _ _ _ K); reflexivity). rewrite E1, E2.
  split; [left; reflexivity|]. split; [left; reflexivity|]. split; [split; [reflexivity|cbn; lia]|].
  assert (R : in_range [0; 1; 3]%Z) by (exists 3%Z; split; [cbn; tauto|]; split; [lia|]; cbn; intros y Hy; lia).
  split; [|split; [|split; [|split]]].
  - intros [|[|i]] z l Hz Hl; cbn in Hz, Hl; try (destruct i; discriminate); injection Hz as <-; injection Hl as <-.
    + split; [left; reflexivity|exact R].
    + split; [left; reflexivity|]. exists 2%Z. split; [cbn; tauto|]. split; [lia|]. cbn. intros y Hy. lia.
  - split; [right; reflexivity|exact R].
  - left. split; [|reflexivity]. unfold counts_fit. cbn. lia.
  - right. left. split; [right; reflexivity|]. auto.
  - right. right. split; [left; reflexivity|]. split; [discriminate|]. split; [|reflexivity]. intros (m & Hm & H0 & B). assert (B1 := B (-3)%Z ltac:(cbn; tauto)). cbn in Hm. lia.
Qed.
Lemma times_lists_example : exists o, ttv_init ek (targs_of None (Some ex_times) (Some ex_inds) (ex_kw 2 ex_bs)) = Ok o /\
  List.length ex_inds = List.length ex_times /\ (List.length (firstn 1 ex_inds) < List.length ex_times)%nat /\
  (forall i z tt, nth_error ex_inds i = Some z -> nth_error ex_times i = Some tt -> List.length z = List.length tt).
Proof.
  destruct (ttv_init ek (targs_of None (Some ex_times) (Some ex_inds) (ex_kw 2 ex_bs))) as [o|] eqn:E; [|discriminate E]. exists o. split; [reflexivity|].
  split; [reflexivity|]. split; [cbn; lia|]. intros [|[|i]] z l Hz Hl; cbn in Hz, Hl; try (destruct i; discriminate); injection Hz as <-; injection Hl as <-; reflexivity.
Qed.
