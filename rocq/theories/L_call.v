(** * Positional arguments (C98) *)
From Coq Require Import Reals List ListDec Bool Arith ZArith Lra Lia String.
From Verif Require Import Num CoreOps Inst M_units M_kepler M_kwargs M_tensor M_ttv M_simple M_call Spec_orbit Spec_params Spec_kwargs Spec_ttv Spec_call
  L_real L_params3 L_kwargs2 L_ttv1 L_ttv3 L_ttv4 Ex_orbit.
Import ListNotations.
Open Scope string_scope.
Open Scope list_scope.
Local Notation length := List.length.

Lemma lookup_none {A} n (l : list (string * A)) : lookup n l = None <-> ~ In n (map fst l).
Proof.
  split; [|apply lookup_omitted]. induction l as [|[m v] l IH]; intro H; [intros []|]. cbn in *. destruct (String.eqb_spec n m) as [->|E]; [discriminate H|].
  intros [Q|Q]; [congruence|]. exact (IH H Q).
Qed.
Lemma bind_iff {A} : forall (names : list string) (args : list A) (kw : list (string * A)), NoDup names -> NoDup (map fst kw) ->
  (bindable names args kw -> bind_positional names args kw = Ok (named names args ++ kw)) /\
  (~ bindable names args kw -> bind_positional names args kw = Err TypeErr).
Proof.
  induction names as [|n names IH]; intros args kw NDn ND.
  - destruct args as [|v args]; cbn.
    + split; [reflexivity|]. intro H. exfalso. apply H. split; [cbn; lia|exact ND].
    + split; [intros [H _]; cbn in H; lia|reflexivity].
  - destruct args as [|v args]; cbn [bind_positional].
    + split; [reflexivity|]. intro H. exfalso. apply H. split; [cbn; lia|exact ND].
    + inversion NDn as [|? ? Nin NDn']; subst. destruct (IH args kw NDn' ND) as [I1 I2].
      destruct (lookup n kw) as [w|] eqn:E.
      * assert (Hin : In n (map fst kw)) by (destruct (in_dec string_dec n (map fst kw)) as [i1|i1]; [exact i1|apply lookup_none in i1; congruence]).
        split; [|reflexivity]. intros [_ H]. exfalso. cbn in H. inversion H as [|? ? H1 _]; subst. apply H1. rewrite map_app. apply in_or_app. right. exact Hin.
      * apply lookup_none in E. split; intro H.
        { destruct H as [H1 H2]. cbn in H1, H2. inversion H2; subst. rewrite I1; [reflexivity|]. split; [lia|assumption]. }
        { rewrite I2; [reflexivity|]. intros [H1 H2]. apply H. split; [cbn; lia|]. cbn. constructor; [|exact H2].
          rewrite map_app. intro Q. apply in_app_or in Q. destruct Q as [Q|Q]; [|exact (E Q)]. apply Nin. unfold named in Q.
          apply in_map_iff in Q. destruct Q as ([a b] & <- & Q). apply in_combine_l in Q. exact Q. }
Qed.
Ltac nodup := repeat constructor; cbn; intuition discriminate.
Lemma kep_sig_nodup : NoDup kep_signature. Proof. unfold kep_signature. nodup. Qed.
Lemma simple_sig_nodup : NoDup simple_signature. Proof. unfold simple_signature. nodup. Qed.
Lemma kep_positional : forall (T B : Type) (N : Num T B) k (args : list (kval T)) kw, NoDup (map fst kw) ->
  (bindable kepler_order args kw -> kep_construct k args kw = kep_call k (named kepler_order args ++ kw)) /\
  (~ bindable kepler_order args kw -> kep_construct k args kw = Err TypeErr).
Proof.
  intros T B N k args kw ND. destruct (bind_iff kep_signature args kw kep_sig_nodup ND) as [A C]. unfold kep_construct. split; intro H.
  - rewrite A by exact H. reflexivity.
  - rewrite C by exact H. reflexivity.
Qed.
Lemma kep_positional_gives : forall (T B : Type) (N : Num T B) k (args : list (kval T)) kw x, (length args <= length kepler_order)%nat ->
  call_gives (named kepler_order args ++ kw) x -> kep_construct k args kw = kep_init k x.
Proof.
  intros T B N k args kw x L H. assert (ND := gi_once _ _ H). rewrite map_app in ND.
  destruct (kep_positional T B N k args kw) as [A _].
  - clear - ND. induction (map fst (named kepler_order args)) as [|y l IH]; [exact ND|]. inversion ND; subst. apply IH. assumption.
  - rewrite A by (split; [exact L|rewrite map_app; exact ND]). apply keywords_bound. exact H.
Qed.
Lemma ttv_keywords k x : ttv_construct k [] x = ttv_init k x.
Proof. unfold ttv_construct, ttv_init, kep_construct. destruct kep_signature; reflexivity. Qed.
Lemma ttv_positional_ttvs : forall k args ttvs times inds kw, NoDup (map fst kw) -> bindable kepler_order args kw ->
  ttv_construct k args (targs_of (Some ttvs) times inds kw) = ttv_init k (targs_of (Some ttvs) times inds (named kepler_order args ++ kw)).
Proof.
  intros k args ttvs times inds kw ND H. unfold ttv_construct, ttv_init. cbn [ta_ttvs ta_times ta_inds ta_kw targs_of].
  rewrite (proj1 (kep_positional _ _ _ k args kw ND) H). reflexivity.
Qed.
Lemma kwargs_has P t0 kw : ttv_kwargs P t0 kw = Err TypeErr \/ exists kw', ttv_kwargs P t0 kw = Ok kw' /\ lookup "period" kw' <> None.
Proof.
  unfold ttv_kwargs. cbn. destruct (lookup "period" kw) as [v|] eqn:E.
  - right. eexists. split; [reflexivity|]. cbn. rewrite E. discriminate.
  - destruct (lookup "delta_log_period" kw) as [[|d|u]|]; [left; reflexivity| |left; reflexivity|].
    + right. eexists. split; [reflexivity|]. cbn. discriminate.
    + right. eexists. split; [reflexivity|]. cbn. discriminate.
Qed.
Lemma ttv_positional_times : forall k v args times inds kw o,
  ttv_init k (targs_of None (Some times) inds (named kepler_order (v :: args) ++ kw)) = Ok o ->
  ttv_construct k (v :: args) (targs_of None (Some times) inds kw) = Err TypeErr.
Proof.
  intros k v args times inds kw o H. unfold ttv_construct, ttv_init in *. cbn [ta_ttvs ta_times ta_inds ta_kw targs_of] in *.
  destruct (imap (fit_planet inds) times) as [fits|]; [|discriminate H]. cbn [rbind] in *.
  destruct (tstack (map (fun f => intercept_of (snd f)) fits)) as [t0|]; [|discriminate H]. cbn [rbind] in *.
  destruct (tstack (map (fun f => slope_of (snd f)) fits)) as [P|]; [|discriminate H]. cbn [rbind] in *. clear H.
  destruct (kwargs_has P t0 kw) as [->|(kw' & -> & E)]; [reflexivity|]. cbn [rbind].
  unfold kep_construct, kep_signature. cbn [bind_positional]. destruct (lookup "period" kw'); [reflexivity|contradiction].
Qed.
(** ** SimpleTransitOrbit *)
Lemma opt_given {T} (l : list (string * kval T)) n v : NoDup (map fst l) -> given_or_not l n v -> simple_num n l = Ok v.
Proof.
  unfold given_or_not, simple_num. intros ND. destruct v as [a|].
  - intros (q & H & <-). rewrite (lookup_in _ _ _ ND H). reflexivity.
  - intro H. rewrite lookup_omitted by exact H. reflexivity.
Qed.
Lemma known_names {A} (l : list (string * A)) : forallb (fun p => existsb (String.eqb (fst p)) simple_signature) l = true <-> forall n, In n (map fst l) -> In n simple_order.
Proof.
  rewrite forallb_forall. split.
  - intros H n Hn. apply in_map_iff in Hn. destruct Hn as (p & <- & Hp). apply H in Hp. apply existsb_exists in Hp. destruct Hp as (m & Hm & E).
    apply String.eqb_eq in E. rewrite E. exact Hm.
  - intros H p Hp. apply existsb_exists. exists (fst p). split; [apply H; apply in_map; exact Hp|apply String.eqb_refl].
Qed.
Lemma tail_nodup {A} (l l' : list A) : NoDup (l ++ l') -> NoDup l'.
Proof. induction l as [|y l IH]; intro ND; [exact ND|]. inversion ND; subst. apply IH. assumption. Qed.
Lemma simple_positional : forall (T B : Type) (N : Num T B) (args : list (kval T)) kw x, (length args <= length simple_order)%nat ->
  simple_given (named simple_order args ++ kw) x -> simple_construct args kw = Ok (simple_init x).
Proof.
  intros T B N args kw x L H. assert (ND := sg_once _ _ H). assert (NK : NoDup (map fst kw)) by (rewrite map_app in ND; exact (tail_nodup _ _ ND)).
  unfold simple_construct. rewrite (proj1 (bind_iff simple_signature args kw simple_sig_nodup NK) (conj L ND)). cbn [rbind].
  change (named simple_signature args) with (named simple_order args).
  rewrite (proj2 (known_names _) (sg_known _ _ H)).
  destruct (sg_period _ _ H) as (p & Hp & Ep). destruct (sg_duration _ _ H) as (d & Hd & Ed).
  rewrite (opt_given _ "period" (Some (sa_period x)) ND) by (exists p; split; assumption).
  rewrite (opt_given _ "duration" (Some (sa_duration x)) ND) by (exists d; split; assumption).
  rewrite (opt_given _ _ _ ND (sg_t0 _ _ H)), (opt_given _ _ _ ND (sg_b _ _ H)), (opt_given _ _ _ ND (sg_r_star _ _ H)), (opt_given _ _ _ ND (sg_ror _ _ H)).
  cbn [rbind]. destruct x; reflexivity.
Qed.
Lemma simple_num_err {T} n (l : list (string * kval T)) : simple_num n l = Err TypeErr \/ exists v, simple_num n l = Ok v /\ (omitted l n -> v = None).
Proof.
  unfold simple_num. destruct (lookup n l) as [[|q|u]|] eqn:E; [left; reflexivity| |left; reflexivity|].
  - right. exists (Some (qv q)). split; [reflexivity|]. intro H. apply lookup_none in H. congruence.
  - right. exists None. split; reflexivity.
Qed.
Lemma simple_refuses : forall (T B : Type) (N : Num T B) (args : list (kval T)) kw, NoDup (map fst kw) ->
  ~ bindable simple_order args kw \/ (exists n, In n (map fst kw) /\ ~ In n simple_order) \/
  omitted (named simple_order args ++ kw) "period" \/ omitted (named simple_order args ++ kw) "duration" ->
  simple_construct args kw = Err TypeErr.
Proof.
  intros T B N args kw ND H. unfold simple_construct. destruct (bind_iff simple_signature args kw simple_sig_nodup ND) as [A C].
  assert (D : bindable simple_order args kw \/ ~ bindable simple_order args kw).
  { unfold bindable. destruct (le_dec (length args) (length simple_order)) as [i1|i1]; [|right; intros [Q _]; contradiction].
    destruct (ListDec.NoDup_dec string_dec (map fst (named simple_order args ++ kw))) as [i2|i2]; [left; split; assumption|right; intros [_ Q]; contradiction]. }
  destruct D as [D|D]; [|rewrite C by exact D; reflexivity]. rewrite A by exact D. cbn [rbind].
  destruct H as [H|H]; [contradiction|].
  destruct (forallb (fun p => existsb (String.eqb (fst p)) simple_signature) (named simple_signature args ++ kw)) eqn:F; [|reflexivity].
  destruct H as [(n & Hn & Nn)|H].
  - exfalso. apply Nn. apply (proj1 (known_names _) F). rewrite map_app. apply in_or_app. right. exact Hn.
  - change (named simple_signature args) with (named simple_order args). set (l := named simple_order args ++ kw) in *. clearbody l.
    destruct (simple_num_err "period" l) as [->|(p & -> & Hp)]; [reflexivity|]. cbn [rbind].
    destruct (simple_num_err "duration" l) as [->|(d & -> & Hd)]; [reflexivity|]. cbn [rbind].
    destruct (simple_num_err "t0" l) as [->|(x1 & -> & _)]; [reflexivity|]. cbn [rbind].
    destruct (simple_num_err "b" l) as [->|(x2 & -> & _)]; [reflexivity|]. cbn [rbind].
    destruct (simple_num_err "r_star" l) as [->|(x3 & -> & _)]; [reflexivity|]. cbn [rbind].
    destruct (simple_num_err "ror" l) as [->|(x4 & -> & _)]; [reflexivity|]. cbn [rbind].
    destruct H as [H|H]; [rewrite (Hp H); reflexivity|rewrite (Hd H); destruct p; reflexivity].
Qed.
Lemma same_lookup {T} n (l l' : list (string * kval T)) : Forall2 same_number l l' -> simple_num n l = simple_num n l'.
Proof.
  unfold simple_num. induction 1 as [|[m v] [m' v'] l l' [E H] _ IH]; [reflexivity|]. cbn in E, H. subst m'. cbn [lookup].
  destruct (String.eqb n m); [|exact IH]. destruct v, v'; try contradiction; try reflexivity. cbn in H. rewrite H. reflexivity.
Qed.
Lemma same_names {T} (l l' : list (string * kval T)) : Forall2 same_number l l' -> map fst l = map fst l'.
Proof. induction 1 as [|a b l l' [E _] _ IH]; [reflexivity|]. cbn. rewrite E, IH. reflexivity. Qed.
Lemma simple_units : forall (T B : Type) (N : Num T B) (kw kw' : list (string * kval T)), Forall2 same_number kw kw' ->
  simple_construct [] kw = simple_construct [] kw'.
Proof.
  intros T B N kw kw' H. unfold simple_construct. assert (E : forall l : list (string * kval T), bind_positional simple_signature [] l = Ok l) by reflexivity.
  rewrite !E. cbn [rbind].
  assert (F : forallb (fun p => existsb (String.eqb (fst p)) simple_signature) kw = forallb (fun p => existsb (String.eqb (fst p)) simple_signature) kw').
  { apply eq_true_iff_eq. rewrite !known_names, (same_names _ _ H). reflexivity. }
  rewrite F, !(same_lookup _ _ _ H). reflexivity.
Qed.
