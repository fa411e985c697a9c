(** * compat.py *)
From Coq Require Import String List Bool.
From Verif Require Import Num M_compat Spec_compat.
Import ListNotations.
Open Scope string_scope.

Lemma force_dec force : {forced force} + {~ forced force}.
Proof. unfold forced. destruct force as [v|]; [|right; discriminate]. destruct (string_dec v "1") as [->|N]; [left; reflexivity|right; congruence]. Qed.
Lemma select_forced imp force : forced force -> select imp force = (_ <- imp "pymc3" ;; Ok true).
Proof. intros ->. reflexivity. Qed.
Lemma select_free imp force : ~ forced force -> select imp force = match imp "pymc" with Ok _ => Ok false | Err ImportErr => match imp "pymc3" with Ok _ => Ok true | Err ImportErr => Err ImportErr | Err e => Err e end | Err e => Err e end.
Proof. intro N. unfold select. destruct force as [v|]; [|reflexivity]. destruct (String.eqb_spec v "1") as [->|_]; [exfalso; apply N; reflexivity|reflexivity]. Qed.
Theorem select_law : forall imp force,
  (forced force -> (importable imp "pymc3" -> select imp force = Ok true) /\ forall e, imp "pymc3" = Err e -> select imp force = Err e) /\
  (~ forced force ->
     (importable imp "pymc" -> select imp force = Ok false) /\
     (imp "pymc" = Err ImportErr -> importable imp "pymc3" -> select imp force = Ok true) /\
     (select imp force = Err ImportErr <-> imp "pymc" = Err ImportErr /\ imp "pymc3" = Err ImportErr)).
Proof.
  intros imp force. split; intro F.
  - rewrite (select_forced imp force F). split; [intros ->; reflexivity|intros e ->; reflexivity].
  - rewrite (select_free imp force F). split; [intros ->; reflexivity|]. split; [intros -> ->; reflexivity|]. split.
    + destruct (imp "pymc") as [u|e]; [discriminate|]. destruct e; try discriminate. destruct (imp "pymc3") as [u|e]; [discriminate|]. destruct e; try discriminate. auto.
    + intros [-> ->]. reflexivity.
Qed.
Lemma import_all_ok imp ns : import_all imp ns = Ok tt -> forall n, In n ns -> importable imp n.
Proof. induction ns as [|x ns IH]; intros E n I; [destruct I|]. cbn in E. destruct (imp x) as [[]|] eqn:X; [|discriminate]. cbn in E. destruct I as [<-|I]; [exact X|exact (IH E n I)]. Qed.
Lemma import_all_intro imp ns : (forall n, In n ns -> importable imp n) -> import_all imp ns = Ok tt.
Proof. induction ns as [|x ns IH]; intro H; [reflexivity|]. cbn. rewrite (H x (or_introl eq_refl)). cbn. apply IH. intros n I. apply H. right. exact I. Qed.
Lemma unit_ok (r : res unit) : (exists u, r = Ok u) -> r = Ok tt. Proof. intros [[] ->]. reflexivity. Qed.
Theorem load_pure : forall imp force ns, load imp force = Ok ns ->
  select imp force = Ok (ns_pymc3 ns) /\ map fst (ns_origin ns) = api /\
  forall name origin, In (name, origin) (ns_origin ns) -> family (ns_pymc3 ns) origin /\ importable imp origin.
Proof.
  intros imp force ns E. unfold load in E. destruct (select imp force) as [b|] eqn:S; [|discriminate]. cbn [rbind] in E. destruct b.
  - destruct (import_all imp ["exoplanet_core.pymc3.ops"; _; _; _; _]) as [[]|] eqn:A; [|discriminate]. cbn [rbind] in E. pose proof (import_all_ok _ _ A) as IA.
    destruct (imp "theano.tensor.abs_") as [[]|]; [|discriminate]. cbn [rbind] in E.
    match type of E with (rbind ?x _) = _ => destruct x as [ao|] eqn:AO; [|discriminate] end. cbn [rbind] in E.
    destruct (imp "theano.gradient.verify_grad") as [[]|] eqn:VG; [|discriminate]. cbn [rbind] in E.
    match type of E with (rbind ?x _) = _ => destruct x as [fl|] eqn:FL; [|discriminate] end. cbn [rbind] in E. injection E as <-. cbn [ns_pymc3 ns_origin].
    assert (PM : importable imp "pymc3"). { destruct (force_dec force) as [F|F]; [rewrite (select_forced _ _ F) in S|rewrite (select_free _ _ F) in S; destruct (imp "pymc") as [|[]]; try discriminate]; destruct (imp "pymc3") as [[]|e] eqn:P3; try exact P3; try discriminate; try (destruct e; discriminate). }
    assert (AO' : (ao = "theano.assert_op.Assert" \/ ao = "theano.tensor.opt.Assert") /\ importable imp ao).
    { destruct (imp "theano.assert_op.Assert") as [[]|e] eqn:Q; [injection AO as <-; split; [left; reflexivity|exact Q]|]. destruct e; try discriminate. destruct (imp "theano.tensor.opt.Assert") as [[]|] eqn:Q2; [|discriminate]. injection AO as <-. split; [right; reflexivity|exact Q2]. }
    assert (FL' : (fl = "theano.config.change_flags" \/ fl = "theano.configparser.change_flags") /\ importable imp fl).
    { destruct (import_all imp ["theano"; "theano.config.change_flags"]) as [[]|e] eqn:Q; [injection FL as <-; split; [left; reflexivity|apply (import_all_ok _ _ Q); right; left; reflexivity]|].
      destruct e; try discriminate; destruct (imp "theano.configparser.change_flags") as [[]|] eqn:Q2; try discriminate; injection FL as <-; (split; [right; reflexivity|exact Q2]). }
    split; [reflexivity|]. split; [reflexivity|]. destruct AO' as [AO1 AO2], FL' as [FL1 FL2]. intros name origin I. cbn [In] in I.
    repeat (destruct I as [I|I]; [injection I as <- <-; split; [|first [exact PM|exact AO2|exact FL2|exact VG|apply IA; cbn; tauto]]; cbn; first [tauto|right; right; reflexivity|destruct AO1 as [->| ->]; right; right; reflexivity|destruct FL1 as [->| ->]; right; right; reflexivity]|]). destruct I.
  - match type of E with (rbind ?x _) = _ => destruct x as [[]|] eqn:A; [|discriminate] end. cbn [rbind] in E. injection E as <-. cbn [ns_pymc3 ns_origin]. pose proof (import_all_ok _ _ A) as IA.
    assert (PM : importable imp "pymc"). { destruct (force_dec force) as [F|F]; [rewrite (select_forced _ _ F) in S; destruct (imp "pymc3"); discriminate|rewrite (select_free _ _ F) in S]. destruct (imp "pymc") as [[]|e] eqn:P; [exact P|]. destruct e; try discriminate. destruct (imp "pymc3") as [|[]]; discriminate. }
    split; [reflexivity|]. split; [reflexivity|]. intros name origin I. cbn [In] in I.
    repeat (destruct I as [I|I]; [injection I as <- <-; split; [|first [exact PM|apply IA; cbn; tauto]]; cbn; first [tauto|right; right; reflexivity]|]). destruct I.
Qed.
Theorem load_error : forall imp force e, clean imp -> load imp force = Err e -> e = ImportErr.
Proof.
  intros imp force e C E. assert (IA : forall ns e, import_all imp ns = Err e -> e = ImportErr).
  { induction ns as [|n ns IH]; intros e' H; [discriminate|]. cbn in H. destruct (imp n) as [|e0] eqn:N; [exact (IH _ H)|]. cbn in H. injection H as <-. exact (C _ _ N). }
  assert (SE : forall e, select imp force = Err e -> e = ImportErr).
  { intros e' H. destruct (force_dec force) as [F|F]; [rewrite (select_forced _ _ F) in H|rewrite (select_free _ _ F) in H].
    - destruct (imp "pymc3") eqn:P; [discriminate|]. cbn in H. injection H as <-. exact (C _ _ P).
    - destruct (imp "pymc") as [|e0] eqn:P; [discriminate|]. assert (e0 = ImportErr) by exact (C _ _ P). subst e0. destruct (imp "pymc3") as [|e1] eqn:P3; [discriminate|]. assert (e1 = ImportErr) by exact (C _ _ P3). subst e1. injection H as <-. reflexivity. }
  unfold load in E. destruct (select imp force) as [b|e0] eqn:S; [|injection E as <-; exact (SE _ eq_refl)]. cbn [rbind] in E. destruct b.
  - match type of E with (rbind ?x _) = _ => destruct x as [|e0] eqn:A; [|injection E as <-; exact (IA _ _ A)] end. cbn [rbind] in E.
    destruct (imp "theano.tensor.abs_") as [|e0] eqn:B; [|injection E as <-; exact (C _ _ B)]. cbn [rbind] in E.
    match type of E with (rbind ?x _) = _ => destruct x as [|e0] eqn:AO end.
    2: { injection E as <-. destruct (imp "theano.assert_op.Assert") as [|e1] eqn:Q; [discriminate|]. assert (e1 = ImportErr) by exact (C _ _ Q). subst e1. destruct (imp "theano.tensor.opt.Assert") eqn:Q2; [discriminate|]. injection AO as <-. exact (C _ _ Q2). }
    cbn [rbind] in E. destruct (imp "theano.gradient.verify_grad") as [|e0] eqn:V; [|injection E as <-; exact (C _ _ V)]. cbn [rbind] in E.
    match type of E with (rbind ?x _) = _ => destruct x as [|e0] eqn:FL end; [discriminate|]. injection E as <-. destruct (import_all imp ["theano"; "theano.config.change_flags"]) as [|e1] eqn:Q; [discriminate|]. assert (e1 = ImportErr) by exact (IA _ _ Q). subst e1.
    destruct (imp "theano.configparser.change_flags") eqn:Q2; [discriminate|]. injection FL as <-. exact (C _ _ Q2).
  - match type of E with (rbind ?x _) = _ => destruct x as [|e0] eqn:A; [discriminate|injection E as <-; exact (IA _ _ A)] end.
Qed.
Theorem load_versions : forall imp force b, select imp force = Ok b -> (forall n, In n (needed b) -> importable imp n) ->
  (b = false -> exists ns, load imp force = Ok ns) /\
  (b = true -> forall assert_op flags,
     found imp [ImportErr] "theano.assert_op.Assert" "theano.tensor.opt.Assert" assert_op ->
     found imp [ImportErr; AttrErr] "theano.config.change_flags" "theano.configparser.change_flags" flags ->
     exists ns, load imp force = Ok ns /\ In ("Assert", assert_op) (ns_origin ns) /\ In ("change_flags", flags) (ns_origin ns)).
Proof.
  intros imp force b S H. split; intros ->; unfold load; rewrite S; cbn [rbind].
  - rewrite import_all_intro; [eexists; reflexivity|]. intros n I. apply H. cbn in I |- *. tauto.
  - intros ao fg FA FF. rewrite import_all_intro; [|intros n I; apply H; cbn in I |- *; tauto]. cbn [rbind]. rewrite (H "theano.tensor.abs_") by (cbn; tauto). cbn [rbind].
    assert (A : match imp "theano.assert_op.Assert" with Ok _ => Ok "theano.assert_op.Assert" | Err ImportErr => _ <- imp "theano.tensor.opt.Assert" ;; Ok "theano.tensor.opt.Assert" | Err e => Err e end = Ok ao).
    { destruct FA as [[-> ->]|[(e & [<-|[]] & ->) [-> ->]]]; reflexivity. }
    rewrite A. cbn [rbind]. rewrite (H "theano.gradient.verify_grad") by (cbn; tauto). cbn [rbind].
    assert (F : match import_all imp ["theano"; "theano.config.change_flags"] with Ok _ => Ok "theano.config.change_flags" | Err ImportErr | Err AttrErr => _ <- imp "theano.configparser.change_flags" ;; Ok "theano.configparser.change_flags" | Err e => Err e end = Ok fg).
    { cbn [import_all]. rewrite (H "theano") by (cbn; tauto). cbn [rbind]. destruct FF as [[-> ->]|[(e & [<-|[<-|[]]] & ->) [-> ->]]]; reflexivity. }
    rewrite F. cbn [rbind]. eexists. split; [reflexivity|]. cbn. tauto.
Qed.
