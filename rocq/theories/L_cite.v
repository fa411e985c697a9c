(** * citations.py *)
From Coq Require Import String List Bool Arith Permutation Sorted Lia Ascii NArith ListDec.
From Verif Require Import Num M_kwargs M_citedata M_cite Spec_cite L_params3.
Import ListNotations.
Open Scope string_scope.
Local Open Scope list_scope.

Definition keysof (d : cites) : list string := map fst d.
Definition dict_ok (d : cites) : Prop := List.Forall (fun kv => lookup (fst kv) CITATIONS = Some (snd kv)) d.
Lemma filter_app_ {A} (f : A -> bool) a b : filter f (a ++ b) = filter f a ++ filter f b.
Proof. induction a as [|x a IH]; [reflexivity|]. cbn. destruct (f x); cbn; rewrite IH; reflexivity. Qed.
Lemma firsts_in l k : In k (firsts l) <-> In k l.
Proof.
  induction l as [|x l IH]; [reflexivity|]. cbn [firsts In]. rewrite filter_In, IH. destruct (String.eqb_spec k x) as [->|N]; cbn [negb]; [tauto|]. intuition congruence.
Qed.
Lemma firsts_snoc l k : firsts (l ++ [k]) = if in_dec string_dec k l then firsts l else firsts l ++ [k].
Proof.
  induction l as [|x l IH]; [reflexivity|]. cbn [app firsts]. rewrite IH. destruct (in_dec string_dec k l) as [I|N].
  - destruct (in_dec string_dec k (x :: l)) as [I'|N']; [reflexivity|exfalso; apply N'; right; exact I].
  - rewrite filter_app_. cbn [filter]. destruct (String.eqb_spec k x) as [->|NE]; cbn [negb].
    + destruct (in_dec string_dec x (x :: l)) as [_|N']; [rewrite app_nil_r; reflexivity|exfalso; apply N'; left; reflexivity].
    + destruct (in_dec string_dec k (x :: l)) as [[Q|I]|_]; [congruence|contradiction|reflexivity].
Qed.
Lemma firsts_nodup l : NoDup (firsts l).
Proof.
  induction l as [|x l IH]; [constructor|]. cbn [firsts]. constructor; [|apply NoDup_filter; exact IH]. rewrite filter_In. rewrite String.eqb_refl. intros [_ Q]. discriminate.
Qed.
Lemma oset_keys k v d : keysof (oset k v d) = if in_dec string_dec k (keysof d) then keysof d else keysof d ++ [k].
Proof.
  unfold keysof. induction d as [|(k' & v') d IH]; [reflexivity|]. cbn [oset]. destruct (String.eqb_spec k k') as [->|N].
  - cbn [map fst]. destruct (in_dec string_dec k' (k' :: map fst d)) as [_|Q]; [reflexivity|exfalso; apply Q; left; reflexivity].
  - cbn [map fst]. rewrite IH. destruct (in_dec string_dec k (map fst d)) as [I|NI]; destruct (in_dec string_dec k (k' :: map fst d)) as [J|NJ]; try reflexivity.
    + exfalso. apply NJ. right. exact I.
    + destruct J as [Q|J]; [congruence|contradiction].
Qed.
Lemma oset_ok k v d : lookup k CITATIONS = Some v -> dict_ok d -> dict_ok (oset k v d).
Proof.
  intros E D. unfold dict_ok in *. induction d as [|(k' & v') d IH]; [repeat constructor; exact E|]. cbn [oset]. pose proof (Forall_inv D) as D1. pose proof (Forall_inv_tail D) as D2. destruct (String.eqb_spec k k') as [->|N].
  - constructor; [exact E|exact D2].
  - constructor; [exact D1|exact (IH D2)].
Qed.
Lemma add_all_spec ks : forall d l, dict_ok d -> keysof d = firsts l -> dict_ok (fst (add_all ks d)) /\ keysof (fst (add_all ks d)) = firsts (l ++ known_prefix ks).
Proof.
  induction ks as [|k ks IH]; intros d l D K; cbn [add_all known_prefix]; [rewrite app_nil_r; split; assumption|]. destruct (lookup k CITATIONS) as [v|] eqn:E; [|rewrite app_nil_r; split; assumption].
  replace (l ++ k :: known_prefix ks) with ((l ++ [k]) ++ known_prefix ks) by (rewrite <- app_assoc; reflexivity). apply IH; [apply oset_ok; assumption|].
  rewrite oset_keys, firsts_snoc, K. destruct (in_dec string_dec k (firsts l)) as [I|N], (in_dec string_dec k l) as [J|M]; try reflexivity; rewrite firsts_in in *; contradiction.
Qed.
(** the state of one model *)
Definition state_ok (kss : list (list string)) (x : option cites) : Prop :=
  match kss with
  | [] => x = None
  | _ => exists d, x = Some d /\ dict_ok d /\ keysof d = firsts (concat kss)
  end.
Lemma state_add kss ks x : state_ok kss x -> state_ok (kss ++ [known_prefix ks]) (Some (fst (add_all ks (match x with Some d => d | None => [] end)))).
Proof.
  intro S. assert (G : exists d, match x with Some d => d | None => [] end = d /\ dict_ok d /\ keysof d = firsts (concat kss)).
  { destruct kss as [|k0 kss]; cbn [state_ok] in S; [subst x; exists []; split; [reflexivity|split; [constructor|reflexivity]]|]. destruct S as (d & -> & D & K). exists d. split; [reflexivity|split; assumption]. }
  destruct G as (d & -> & D & K). destruct (add_all_spec ks d _ D K) as [A B]. unfold state_ok. destruct (kss ++ [known_prefix ks]) as [|q qs] eqn:Q; [destruct kss; discriminate|]. rewrite <- Q.
  eexists. split; [reflexivity|]. split; [exact A|]. rewrite B, concat_app. cbn [concat]. rewrite app_nil_r. reflexivity.
Qed.
Lemma add_world w st ks model m kss : state_ok kss (w m) ->
  state_ok (kss ++ (if belongs st model m then [known_prefix ks] else [])) (fst (add_citations_to_model w st ks model) m).
Proof.
  intro S. unfold add_citations_to_model, modelcontext, belongs.
  assert (G : forall n, state_ok (kss ++ (if Nat.eqb n m then [known_prefix ks] else [])) (fst (let d := match w n with Some d => d | None => [] end in let '(d', r) := add_all ks d in (wset w n d', r)) m)).
  { intro n. cbv zeta. pose proof (state_add kss ks (w n)) as A. destruct (add_all ks _) as [d' r] eqn:E. cbn [fst] in *. unfold wset. rewrite (Nat.eqb_sym m n). destruct (Nat.eqb_spec n m) as [->|N]; [apply A; exact S|rewrite app_nil_r; exact S]. }
  destruct model as [n|]; [apply G|]. destruct st as [|n st]; [cbn; rewrite app_nil_r; exact S|apply G].
Qed.
Lemma known_all c ks : In ks (registers c) -> known_prefix ks = ks.
Proof. destruct c; cbn; intros H; repeat (destruct H as [<-|H]; [reflexivity|]); destruct H. Qed.
Lemma add_ok w st ks model : known_prefix ks = ks -> snd (add_citations_to_model w st ks model) = Ok tt.
Proof.
  intro K. assert (G : forall d, snd (add_all ks d) = Ok tt). { induction ks as [|k ks IH]; intro d; [reflexivity|]. cbn [known_prefix add_all] in *. destruct (lookup k CITATIONS); [|discriminate]. injection K as K. apply IH. exact K. }
  unfold add_citations_to_model. destruct (modelcontext st model) as [n|e] eqn:M.
  - specialize (G (match w n with Some d => d | None => [] end)). cbv zeta. destruct (add_all ks _). exact G.
  - unfold modelcontext in M. destruct model; [discriminate|]. destruct st; [|discriminate]. injection M as <-. reflexivity.
Qed.
Lemma belongs_ctx st model n m : modelcontext st model = Ok n -> belongs st (Some n) m = belongs st model m.
Proof. unfold modelcontext, belongs. destruct model; [intro E; injection E as ->; reflexivity|]. destruct st; [discriminate|]. intro E. injection E as ->. reflexivity. Qed.
Lemma firsts_dup (l : list string) k : firsts (l ++ [k; k]) = firsts (l ++ [k]).
Proof.
  replace (l ++ [k; k]) with ((l ++ [k]) ++ [k]) by (rewrite <- app_assoc; reflexivity). rewrite firsts_snoc. destruct (in_dec string_dec k (l ++ [k])) as [_|N]; [reflexivity|]. exfalso. apply N, in_or_app. right. left. reflexivity.
Qed.
Lemma state_firsts a b x : firsts (concat a) = firsts (concat b) -> (a = [] <-> b = []) -> state_ok a x -> state_ok b x.
Proof.
  intros F E S. unfold state_ok in *. destruct a as [|ka a], b as [|kb b]; try exact S; try (destruct E as [E1 E2]; first [specialize (E1 eq_refl); discriminate|specialize (E2 eq_refl); discriminate]).
  destruct S as (d & A & B & C). exists d. rewrite <- F. auto.
Qed.
Lemma reg_world c w st model m kss : state_ok kss (w m) -> modelcontext st model <> Err TypeErr \/ needs_context c = false ->
  state_ok (kss ++ match rests_on c with [] => [] | ks => if belongs st model m then [ks] else [] end) (fst (construct w st c model) m).
Proof.
  intros S H. unfold construct.
  assert (G : forall mo, (forall n, belongs st mo n = belongs st model n) -> state_ok (kss ++ match rests_on c with [] => [] | ks => if belongs st model m then [ks] else [] end) (fst (register_all w st (registers c) mo) m)).
  { intros mo B. assert (one : forall k, known_prefix [k] = [k] -> state_ok (kss ++ (if belongs st model m then [[k]] else [])) (fst (register_all w st [[k]] mo) m)).
    { intros k K. cbn [register_all]. pose proof (add_world w st [k] mo m kss S) as A. pose proof (add_ok w st [k] mo K) as O. destruct (add_citations_to_model w st [k] mo) as [w1 r]. cbn [snd fst] in *. subst r. rewrite K, B in A. exact A. }
    destruct c; try (apply one; reflexivity); try (cbn; rewrite app_nil_r; exact S).
    cbn [rests_on registers register_all]. pose proof (add_world w st ["starry"] mo m kss S) as A. pose proof (add_ok w st ["starry"] mo eq_refl) as O. destruct (add_citations_to_model w st ["starry"] mo) as [w1 r]. cbn [snd fst] in *. subst r.
    pose proof (add_world w1 st ["starry"] mo m _ A) as A2. pose proof (add_ok w1 st ["starry"] mo eq_refl) as O2. destruct (add_citations_to_model w1 st ["starry"] mo) as [w2 r2]. cbn [snd fst] in *. subst r2. rewrite B in A2.
    refine (state_firsts _ _ _ _ _ A2); destruct (belongs st model m); rewrite ?app_nil_r; try reflexivity.
    - change (known_prefix ["starry"]) with ["starry"]. rewrite <- app_assoc, !concat_app. cbn [concat app]. apply firsts_dup.
    - split; intro Q; destruct kss; discriminate. }
  destruct (needs_context c) eqn:NC; [|apply G; reflexivity]. destruct (modelcontext st model) as [n|e] eqn:M.
  - apply G. intro m'. apply belongs_ctx. exact M.
  - exfalso. unfold modelcontext in M. destruct model; [discriminate|]. destruct st; [|discriminate]. injection M as <-. destruct H; congruence.
Qed.
Lemma happen_world (w : world) st e m kss : state_ok kss (w m) -> state_ok (kss ++ registrations st [e] m) (fst (happen (w, st) e) m).
Proof.
  intro S. destruct e as [n| |c model|ks model]; cbn [registrations happen fst]; rewrite ?app_nil_r; try exact S.
  - destruct (modelcontext st model) as [n|e] eqn:M.
    + apply reg_world; [exact S|left; congruence].
    + destruct (needs_context c) eqn:NC; [|apply reg_world; [exact S|right; exact NC]]. unfold construct. rewrite NC, M. cbn [fst]. assert (B : belongs st model m = false) by (unfold modelcontext in M; unfold belongs; destruct model; [discriminate|]; destruct st; [reflexivity|discriminate]).
      rewrite B. destruct (rests_on c); rewrite app_nil_r; exact S.
  - apply add_world. exact S.
Qed.
Lemma registrations_cons st e es m : registrations st (e :: es) m = registrations st [e] m ++ registrations (snd (happen (empty_world, st) e)) es m.
Proof. destruct e; cbn [registrations happen snd]; rewrite ?app_nil_r; reflexivity. Qed.
Lemma happen_stack (w w' : world) st e : snd (happen (w, st) e) = snd (happen (w', st) e).
Proof. destruct e; reflexivity. Qed.
Lemma history_world es : forall (w : world) st m kss, state_ok kss (w m) -> state_ok (kss ++ registrations st es m) (fst (history es (w, st)) m).
Proof.
  induction es as [|e es IH]; intros w st m kss S; [cbn; rewrite app_nil_r; exact S|]. rewrite registrations_cons. unfold history in *. cbn [fold_left]. pose proof (happen_world w st e m kss S) as H.
  rewrite (happen_stack empty_world w). destruct (happen (w, st) e) as [w1 st1]. cbn [fst snd] in *. rewrite app_assoc. apply IH. exact H.
Qed.
Lemma history_state es m : state_ok (registrations [] es m) (fst (history es (empty_world, [])) m).
Proof. apply (history_world es empty_world [] m []). reflexivity. Qed.

(** sorting *)
Lemma sinsert_perm k l : Permutation (sinsert k l) (k :: l).
Proof. induction l as [|x l IH]; [reflexivity|]. cbn [sinsert]. destruct (String.leb k x); [reflexivity|]. rewrite IH. apply perm_swap. Qed.
Lemma ssort_perm l : Permutation (ssort l) l.
Proof. induction l as [|x l IH]; [reflexivity|]. cbn. rewrite sinsert_perm. constructor. exact IH. Qed.
Lemma leb_total a b : String.leb a b = false -> String.leb b a = true.
Proof. destruct (String.leb_total a b); congruence. Qed.

Lemma ltb_trans_aux a : forall b c, String.leb a b = true -> String.leb b c = true -> String.leb a c = true.
Proof.
  unfold String.leb. induction a as [|x a IH]; intros [|y b] [|z c] H1 H2; cbn [String.compare] in *; try discriminate; try reflexivity.
  unfold Ascii.compare in *. destruct (N.compare_spec (N_of_ascii x) (N_of_ascii y)) as [E1|L1|G1]; destruct (N.compare_spec (N_of_ascii y) (N_of_ascii z)) as [E2|L2|G2]; try discriminate.
  - rewrite <- E2, E1, N.compare_refl. apply (IH b c); assumption.
  - rewrite (proj2 (N.compare_lt_iff (N_of_ascii x) (N_of_ascii z))) by lia. reflexivity.
  - rewrite (proj2 (N.compare_lt_iff (N_of_ascii x) (N_of_ascii z))) by lia. reflexivity.
  - rewrite (proj2 (N.compare_lt_iff (N_of_ascii x) (N_of_ascii z))) by lia. reflexivity.
Qed.
Lemma sinsert_sorted k l : StronglySorted sle l -> StronglySorted sle (sinsert k l).
Proof.
  induction l as [|x l IH]; intro S; [repeat constructor|]. cbn [sinsert]. destruct (String.leb k x) eqn:E.
  - constructor; [exact S|]. constructor; [exact E|]. apply StronglySorted_inv in S. destruct S as [_ F]. rewrite Forall_forall in *. intros y I. exact (ltb_trans_aux _ _ _ E (F y I)).
  - apply StronglySorted_inv in S. destruct S as [S F]. constructor; [exact (IH S)|]. rewrite Forall_forall in *. intros y I. apply (Permutation_in _ (sinsert_perm k l)) in I. destruct I as [<-|I]; [apply leb_total; exact E|exact (F y I)].
Qed.
Lemma ssort_sorted l : StronglySorted sle (ssort l).
Proof. induction l as [|x l IH]; [constructor|]. apply sinsert_sorted. exact IH. Qed.

Lemma dict_references d : dict_ok d -> references (keysof d) (map snd d).
Proof. unfold references, keysof. induction d as [|kv d IH]; intro D; [constructor|]. cbn [map]. constructor; [exact (Forall_inv D)|exact (IH (Forall_inv_tail D))]. Qed.
Lemma flat_map_map {A C D} (f : A -> C) (g : C -> list D) l : flat_map (fun x => g (f x)) l = flat_map g (map f l).
Proof. induction l as [|x l IH]; [reflexivity|]. cbn. rewrite IH. reflexivity. Qed.

Theorem report_law : forall wrap p3 es m width, let s := history es (empty_world, []) in
  let out := get_citations_for_model wrap p3 (fst s) (snd s) (Some m) width in
  match registrations [] es m with
  | [] => out = Ok ("", "")
  | kss => exists refs keys, references (firsts (concat kss)) refs /\
      Permutation keys (flat_map e_keys (always p3 ++ refs)) /\ StronglySorted sle keys /\
      out = Ok (String.concat newline (wrap (sentence keys) width),
                String.concat newline (map e_bib (cite_exoplanet :: always p3 ++ refs)))
  end.
Proof.
  intros wrap p3 es m width s out. pose proof (history_state es m) as S. fold s in S. destruct (registrations [] es m) as [|ks kss]; cbn [state_ok] in S.
  - unfold out, get_citations_for_model. cbn [modelcontext rbind]. rewrite S. reflexivity.
  - destruct S as (d & E & D & K). exists (map snd d), (ssort ((if p3 then e_keys cite_arviz ++ e_keys cite_pymc3 ++ e_keys cite_theano else e_keys cite_arviz) ++ flat_map (fun kv => e_keys (snd kv)) d)).
    split; [rewrite <- K; apply dict_references; exact D|]. split; [|split; [apply ssort_sorted|]].
    + rewrite ssort_perm. rewrite flat_map_app, <- flat_map_map. destruct p3; reflexivity.
    + unfold out, get_citations_for_model. cbn [modelcontext rbind]. rewrite E. cbv zeta. rewrite map_cons, map_app, map_map. destruct p3; reflexivity.
Qed.
(** no key twice, for the components of the package *)
Definition package : list string := ["astropy"; "starry"; "kipping13"; "kipping13b"; "vaneylen19"]%string.
Lemma own_regs es : own es -> forall st m ks k, In ks (registrations st es m) -> In k ks -> In k package.
Proof.
  unfold own, package. induction es as [|e es IH]; intros O st m ks k I J; [destruct I|]. pose proof (Forall_inv O) as O1. pose proof (Forall_inv_tail O) as O2. destruct e as [n| |c model|ks' model]; cbn [registrations] in I; try (exact (IH O2 _ _ _ _ I J)); [|destruct O1].
  apply in_app_or in I. destruct I as [I|I]; [|exact (IH O2 _ _ _ _ I J)]. destruct c; cbn in I; destruct (belongs st model m); cbn in I; try (destruct I as [<-|[]]; cbn in J; destruct J as [<-|[]]; cbn; tauto); destruct I.
Qed.
Lemma refs_in ks refs : references ks refs -> forall e, In e refs -> exists k, In k ks /\ lookup k CITATIONS = Some e.
Proof.
  intro R. induction R as [|k e ks refs E R IH]; intros e' I; [destruct I|]. destruct I as [<-|I]; [exists k; split; [left; reflexivity|exact E]|]. destruct (IH e' I) as (k' & A & B). exists k'. split; [right; exact A|exact B].
Qed.
(** BibTeX entries *)
Fixpoint contains (p s : string) : bool := (String.prefix p s || match s with EmptyString => false | String _ s' => contains p s' end)%bool.
Lemma prefix_split p : forall s, String.prefix p s = true -> exists r, s = (p ++ r)%string.
Proof.
  induction p as [|c p IH]; intros s H; [exists s; reflexivity|]. destruct s as [|d s]; [discriminate|]. cbn in H. destruct (ascii_dec c d) as [<-|]; [|discriminate]. destruct (IH s H) as [r ->]. exists r. reflexivity.
Qed.
Lemma prefix_app p r : String.prefix p (p ++ r)%string = true.
Proof. induction p as [|c p IH]; [destruct r; reflexivity|]. cbn. destruct (ascii_dec c c); [exact IH|congruence]. Qed.
Lemma contains_sound p s : contains p s = true -> exists a b, s = (a ++ p ++ b)%string.
Proof.
  induction s as [|c s IH]; intro H; cbn [contains] in H; apply orb_true_iff in H; destruct H as [H|H].
  - destruct (prefix_split _ _ H) as [r E]. exists EmptyString, r. exact E.
  - discriminate.
  - destruct (prefix_split _ _ H) as [r E]. exists EmptyString, r. exact E.
  - destruct (IH H) as (a & b & ->). exists (String c a), b. reflexivity.
Qed.
Lemma contains_complete p a b : contains p (a ++ p ++ b)%string = true.
Proof.
  induction a as [|c a IH]; cbn [append].
  - pose proof (prefix_app p b) as H. destruct (p ++ b)%string; cbn [contains]; rewrite H; reflexivity.
  - cbn [contains]. rewrite IH. apply orb_true_r.
Qed.
Lemma sapp_assoc a b c : ((a ++ b) ++ c)%string = (a ++ b ++ c)%string.
Proof. induction a as [|x a IH]; [reflexivity|]. cbn. rewrite IH. reflexivity. Qed.
Definition kinds : list string := ["article"; "ARTICLE"; "misc"]%string.
Definition bib_test (bib key : string) : bool := existsb (fun kind => contains ("@" ++ kind ++ "{" ++ key ++ ",") bib) kinds.
Lemma bib_test_sound bib key : bib_test bib key = true -> has_bibtex bib key.
Proof.
  unfold bib_test. intro H. apply existsb_exists in H. destruct H as (kind & I & C). destruct (contains_sound _ _ C) as (a & b & ->). exists a, kind, b. split; [rewrite !sapp_assoc; reflexivity|]. cbn in I. destruct I as [<-|[<-|[<-|[]]]]; tauto.
Qed.
Lemma bib_test_complete bib key : has_bibtex bib key -> bib_test bib key = true.
Proof.
  intros (a & kind & b & -> & K). unfold bib_test. apply existsb_exists. exists kind. split; [cbn; destruct K as [K|[K|K]]; subst kind; tauto|].
  replace (a ++ "@" ++ kind ++ "{" ++ key ++ "," ++ b)%string with (a ++ ("@" ++ kind ++ "{" ++ key ++ ",") ++ b)%string by (rewrite !sapp_assoc; reflexivity). apply contains_complete.
Qed.
Lemma has_app_l a bib key : has_bibtex bib key -> has_bibtex (a ++ bib) key.
Proof. intros (p & k & q & -> & K). exists (a ++ p)%string, k, q. split; [rewrite !sapp_assoc; reflexivity|exact K]. Qed.
Lemma has_app_r bib b key : has_bibtex bib key -> has_bibtex (bib ++ b) key.
Proof. intros (p & k & q & -> & K). exists p, k, (q ++ b)%string. split; [rewrite !sapp_assoc; reflexivity|exact K]. Qed.
Lemma concat_cons2 sep x y l : String.concat sep (x :: y :: l) = (x ++ sep ++ String.concat sep (y :: l))%string.
Proof. reflexivity. Qed.
Lemma has_concat sep l key : (exists b, In b l /\ has_bibtex b key) -> has_bibtex (String.concat sep l) key.
Proof.
  intros (b & I & H). induction l as [|x l IH]; [destruct I|]. destruct l as [|y l].
  - destruct I as [->|[]]. exact H.
  - rewrite concat_cons2. destruct I as [->|I]; [apply has_app_r; exact H|]. apply has_app_l, has_app_l, IH, I.
Qed.
Definition good_entry (e : entry) : bool := forallb (bib_test (e_bib e)) (e_keys e).
Lemma package_good : forallb (fun k => match lookup k CITATIONS with Some e => good_entry e | None => false end) package = true.
Proof. vm_compute. reflexivity. Qed.
Lemma always_good : forallb good_entry [cite_exoplanet; cite_arviz; cite_pymc3; cite_theano] = true.
Proof. vm_compute. reflexivity. Qed.
Theorem bibtex_law : forall p3 es m ks refs, own es -> ks = firsts (concat (registrations [] es m)) -> references ks refs ->
  forall key, In key (["exoplanet:joss"; "exoplanet:zenodo"]%string ++ flat_map e_keys (always p3 ++ refs)) ->
  has_bibtex (String.concat newline (map e_bib (cite_exoplanet :: always p3 ++ refs))) key.
Proof.
  intros p3 es m ks refs O -> R key I. apply has_concat.
  assert (G : exists e, In e (cite_exoplanet :: always p3 ++ refs) /\ In key (e_keys e) /\ good_entry e = true).
  { apply in_app_or in I. destruct I as [I|I].
    - exists cite_exoplanet. split; [left; reflexivity|]. split; [exact I|]. pose proof always_good as A. cbn [forallb] in A. apply andb_true_iff in A. exact (proj1 A).
    - apply in_flat_map in I. destruct I as (e & I & J). exists e. split; [right; exact I|]. split; [exact J|]. apply in_app_or in I. destruct I as [I|I].
      + pose proof always_good as A. rewrite forallb_forall in A. apply A. destruct p3; cbn in I; cbn; tauto.
      + destruct (refs_in _ _ R e I) as (k & A & B). apply (proj1 (firsts_in _ _)) in A. apply in_concat in A. destruct A as (ks & A1 & A2). pose proof (own_regs es O _ _ _ _ A1 A2) as P. pose proof package_good as PG. rewrite forallb_forall in PG. specialize (PG k P). rewrite B in PG. exact PG. }
  destruct G as (e & A & B & C). exists (e_bib e). split; [apply in_map; exact A|]. apply bib_test_sound. unfold good_entry in C. rewrite forallb_forall in C. apply C. exact B.
Qed.

Lemma nodup_app {A} (a b : list A) : NoDup a -> NoDup b -> (forall x, In x a -> ~ In x b) -> NoDup (a ++ b).
Proof.
  induction a as [|x a IH]; intros NA NB D; [exact NB|]. inversion NA as [|y l NI ND]; subst. cbn. constructor.
  - intro I. apply in_app_or in I. destruct I as [I|I]; [contradiction|]. exact (D x (or_introl eq_refl) I).
  - apply IH; [exact ND|exact NB|]. intros y I. apply D. right. exact I.
Qed.
Lemma nodup_flat_map {A C} (f : A -> list C) l : NoDup l -> (forall x, In x l -> NoDup (f x)) -> (forall x y z, In x l -> In y l -> In z (f x) -> In z (f y) -> x = y) -> NoDup (flat_map f l).
Proof.
  induction l as [|x l IH]; intros N F D; [constructor|]. inversion N as [|x' l' NI ND]; subst. cbn [flat_map]. apply nodup_app.
  - apply F. left. reflexivity.
  - apply IH; [exact ND|intros y I; apply F; right; exact I|]. intros a b c I J. apply D; right; assumption.
  - intros z I J. apply in_flat_map in J. destruct J as (y & J & K). assert (x = y) by (apply (D x y z); [left; reflexivity|right; exact J|exact I|exact K]). subst y. contradiction.
Qed.
Definition kf (k : string) : list string := match lookup k CITATIONS with Some e => e_keys e | None => [] end.
Definition all_names : list string := ["arviz"; "pymc3"; "theano"]%string ++ package.
Lemma names_disjoint x y z : In x all_names -> In y all_names -> In z (kf x) -> In z (kf y) -> x = y.
Proof.
  intros I J. assert (B : forallb (fun x => forallb (fun y => (String.eqb x y || forallb (fun z => negb (existsb (String.eqb z) (kf y))) (kf x))%bool) all_names) all_names = true) by (vm_compute; reflexivity).
  rewrite forallb_forall in B. specialize (B x I). rewrite forallb_forall in B. specialize (B y J). apply orb_true_iff in B. destruct B as [B|B]; [apply String.eqb_eq in B; auto|].
  rewrite forallb_forall in B. intros K L. specialize (B z K). apply negb_true_iff in B. exfalso. assert (existsb (String.eqb z) (kf y) = true) by (apply existsb_exists; exists z; split; [exact L|apply String.eqb_refl]). congruence.
Qed.
Lemma names_nodup x : In x all_names -> NoDup (kf x).
Proof. unfold all_names, package. cbn [app In]. intro H. repeat (destruct H as [<-|H]; [unfold kf; cbn; repeat (constructor; [cbn; intuition discriminate|]); constructor|]). destruct H. Qed.
Lemma refs_flat ks refs : references ks refs -> flat_map e_keys refs = flat_map kf ks.
Proof. intro R. induction R as [|k e ks refs E R IH]; [reflexivity|]. cbn [flat_map]. rewrite IH. unfold kf at 2. rewrite E. reflexivity. Qed.
Theorem keys_once : forall p3 es m ks refs, own es -> ks = firsts (concat (registrations [] es m)) -> references ks refs -> NoDup (flat_map e_keys (always p3 ++ refs)).
Proof.
  intros p3 es m ks refs O E R. rewrite flat_map_app, (refs_flat _ _ R).
  pose (ns := (if p3 then ["arviz"; "pymc3"; "theano"]%string else ["arviz"%string])). assert (Q : flat_map e_keys (always p3) = flat_map kf ns) by (destruct p3; reflexivity). rewrite Q, <- flat_map_app.
  assert (P : forall k, In k ks -> In k package). { intros k I. rewrite E in I. apply (proj1 (firsts_in _ _)) in I. apply in_concat in I. destruct I as (l & A & B). exact (own_regs es O _ _ _ _ A B). }
  assert (A : forall k, In k (ns ++ ks) -> In k all_names). { intros k I. unfold all_names. apply in_or_app. apply in_app_or in I. destruct I as [I|I]; [left; destruct p3; cbn in *; tauto|right; exact (P k I)]. }
  apply nodup_flat_map.
  - apply nodup_app; [destruct p3; repeat (constructor; [cbn; intuition discriminate|]); constructor|rewrite E; apply firsts_nodup|]. intros k I J. specialize (P k J). destruct p3; cbn in I; unfold package in P; cbn in P; intuition congruence.
  - intros k I. apply names_nodup, A, I.
  - intros x y z I J. apply names_disjoint; apply A; assumption.
Qed.
Theorem no_context : forall w c, fst (construct w [] c None) = w /\ snd (construct w [] c None) = match c with Kipping13 | VanEylen19 => Err TypeErr | _ => Ok tt end.
Proof. intros w c. destruct c; split; reflexivity. Qed.
Theorem never_raises : forall w st c model, (model <> None \/ st <> []) -> snd (construct w st c model) = Ok tt.
Proof.
  intros w st c model H. assert (G : forall mo kss w, (forall ks, In ks kss -> known_prefix ks = ks) -> snd (register_all w st kss mo) = Ok tt).
  { intros mo kss. induction kss as [|ks kss IH]; intros w1 K; [reflexivity|]. cbn [register_all]. pose proof (add_ok w1 st ks mo (K ks (or_introl eq_refl))) as A. destruct (add_citations_to_model w1 st ks mo) as [w2 r]. cbn in A. subst r. apply IH. intros k I. apply K. right. exact I. }
  unfold construct. destruct (needs_context c); [|apply G, known_all]. destruct (modelcontext st model) as [n|e] eqn:M; [apply G, known_all|]. exfalso. unfold modelcontext in M. destruct model; [discriminate|]. destruct st; [|discriminate]. destruct H; congruence.
Qed.
Theorem rebound_refs : ~ (forall p3 es m ks refs, ks = firsts (concat (registrations [] es m)) -> references ks refs ->
  forall key, In key (flat_map e_keys (always p3 ++ refs)) -> has_bibtex (String.concat newline (map e_bib (cite_exoplanet :: always p3 ++ refs))) key).
Proof.
  intro H. assert (E : forall k e key, lookup k CITATIONS = Some e -> In key (e_keys e) -> has_bibtex (String.concat newline (map e_bib (cite_exoplanet :: always false ++ [e]))) key).
  { intros k e key L I. apply (H false [Add [k] (Some 0)] 0 [k] [e]); [cbn [registrations belongs known_prefix Nat.eqb app]; rewrite L; reflexivity|repeat constructor; exact L|]. apply in_flat_map. exists e. split; [right; left; reflexivity|exact I]. }
  specialize (E "rebound"%string cite_rebound "exoplanet:rebound"%string eq_refl (or_introl eq_refl)). apply bib_test_complete in E. vm_compute in E. discriminate.
Qed.
Lemma three_bad : forallb (fun k => match lookup k CITATIONS with Some e => Bool.eqb (good_entry e) (negb (existsb (String.eqb k) ["rebound"; "reboundias15"; "reboundx"]%string)) | None => false end) (map fst CITATIONS) = true.
Proof. vm_compute. reflexivity. Qed.
(** an entry whose keys all have BibTeX entries in its own text: all but three *)
Theorem table_law : forall k e, lookup k CITATIONS = Some e ->
  ((forall key, In key (e_keys e) -> has_bibtex (e_bib e) key) <-> ~ In k ["rebound"; "reboundias15"; "reboundx"]%string).
Proof.
  intros k e L. assert (I : In k (map fst CITATIONS)). { revert L. generalize CITATIONS. intro t. induction t as [|(k' & v) t IH]; cbn; [discriminate|]. destruct (String.eqb_spec k k') as [->|N]; [left; reflexivity|]. intro L. right. exact (IH L). }
  pose proof three_bad as T. rewrite forallb_forall in T. specialize (T k I). rewrite L in T. apply Bool.eqb_prop in T. split.
  - intros H J. assert (G : good_entry e = true). { unfold good_entry. apply forallb_forall. intros key K. apply bib_test_complete, H, K. } rewrite G in T. symmetry in T. apply negb_true_iff in T. assert (existsb (String.eqb k) ["rebound"; "reboundias15"; "reboundx"]%string = true) by (apply existsb_exists; exists k; split; [exact J|apply String.eqb_refl]). congruence.
  - intros N key K. assert (G : good_entry e = true). { rewrite T. apply negb_true_iff. apply not_true_is_false. intro X. apply existsb_exists in X. destruct X as (y & Y & Q). apply String.eqb_eq in Q. subst y. contradiction. } unfold good_entry in G. rewrite forallb_forall in G. apply bib_test_sound, G, K.
Qed.
Theorem report_bib : forall wrap p3 es m width, own es -> registrations [] es m <> [] -> let s := history es (empty_world, []) in
  exists keys bib, get_citations_for_model wrap p3 (fst s) (snd s) (Some m) width = Ok (String.concat newline (wrap (sentence keys) width), bib) /\
    NoDup keys /\ forall key, In key ("exoplanet:joss" :: "exoplanet:zenodo" :: keys)%string -> has_bibtex bib key.
Proof.
  intros wrap p3 es m width O N s. pose proof (report_law wrap p3 es m width) as L. cbv zeta in L. destruct (registrations [] es m) as [|ks kss] eqn:R; [congruence|]. destruct L as (refs & keys & A & B & C & D).
  exists keys, (String.concat newline (map e_bib (cite_exoplanet :: always p3 ++ refs))). split; [exact D|]. rewrite <- R in A. split.
  - apply (Permutation_NoDup (Permutation_sym B)). exact (keys_once p3 es m _ refs O eq_refl A).
  - intros key I. apply (bibtex_law p3 es m _ refs O eq_refl A). cbn [app In] in *. destruct I as [I|[I|I]]; [left; exact I|right; left; exact I|]. right. right. exact (Permutation_in _ B I).
Qed.
Theorem context_free : forall wrap p3 w stack width, get_citations_for_model wrap p3 w stack None width =
  match stack with [] => Err TypeErr | m :: _ => get_citations_for_model wrap p3 w stack (Some m) width end.
Proof. intros wrap p3 w stack width. destruct stack; reflexivity. Qed.
