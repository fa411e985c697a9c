(** * get_light_curve on arrays *)
From Coq Require Import Reals Lra Lia Psatz List Bool Arith ZArith FunctionalExtensionality.
From Coquelicot Require Import Coquelicot.
From Verif Require Import Num CoreOps Inst CoreFlux M_units M_kepler M_tensor M_limbdark Spec_orbit Spec_array Spec_light L_real L_fl L_flux L_tens L_shape L_transit3 L_shapeS L_reshape L_light1 L_light2.
Import ListNotations.
Local Notation length := List.length.
Open Scope R_scope.

Lemma stencil_len os order nodes weights : stencil os order = Ok (nodes, weights) -> length nodes = length weights.
Proof.
  unfold stencil. destruct (odd_number os) as [K|]; cbn [rbind]; [|discriminate]. unfold normalised.
  assert (L1 : forall K, length (linspace (-0.5) 0.5 K) = K) by (intro K'; unfold linspace; rewrite map_length, seq_length; reflexivity).
  destruct (order =? 0)%Z; [|destruct (order =? 1)%Z; [|destruct (order =? 2)%Z; [|discriminate]]]; intro H; injection H as <- <-; rewrite ?map_length, ?L1, ?seq_length, ?repeat_length; try reflexivity.
  unfold inner2. rewrite map_length, L1.
  assert (G : forall K', (K' <= K)%nat -> length (filter (fun i => Nat.odd i && (i <? 2 * K + 1 - 1)%nat) (seq 0 (2 * K'))) = K').
  { induction K' as [|K' IH]; intro HK; [reflexivity|]. replace (2 * S K')%nat with (2 * K' + 2)%nat by lia. rewrite seq_app, filter_app, app_length, IH by lia. cbn [seq filter].
    replace (Nat.odd (0 + 2 * K')) with false. 2:{ rewrite Nat.add_0_l, Nat.odd_mul. reflexivity. }
    replace (Nat.odd (S (0 + 2 * K'))) with true. 2:{ rewrite Nat.add_0_l, Nat.odd_succ, Nat.even_mul. reflexivity. }
    cbn [andb]. destruct (Nat.ltb_spec (S (0 + 2 * K')) (2 * K + 1 - 1)); cbn [length]; lia. }
  replace (2 * K + 1)%nat with (2 * K + 1)%nat by lia. rewrite (seq_app (2 * K) 1), filter_app, app_length, G by lia. cbn [seq filter].
  replace (Nat.odd (0 + 2 * K)) with false by (rewrite Nat.add_0_l, Nat.odd_mul; reflexivity). cbn. lia.
Qed.

Lemma pos_in_some q l p : pos_in q l = Some p -> (p < length l)%nat /\ nth p l O = q.
Proof.
  revert p. induction l as [|a l IH]; intros p H; cbn in H; [discriminate|]. destruct (Nat.eqb_spec a q) as [->|].
  - injection H as <-. cbn. split; [lia|reflexivity].
  - destruct (pos_in q l) as [p'|] eqn:E; [|discriminate]. injection H as <-. destruct (IH p' eq_refl). cbn. split; [lia|assumption].
Qed.
Lemma pos_in_none q l : pos_in q l = None <-> ~ In q l.
Proof.
  induction l as [|a l IH]; cbn; [tauto|]. destruct (Nat.eqb_spec a q) as [->|].
  - split; [discriminate|tauto].
  - destruct (pos_in q l) as [p|]; cbn.
    + split; [discriminate|]. intro H. exfalso. apply H. right. destruct (in_dec Nat.eq_dec q l) as [|N]; [assumption|]. exfalso. destruct IH as [_ IH]. discriminate (IH N).
    + split; [|reflexivity]. intros _ [H|H]; [contradiction|]. apply (proj1 IH eq_refl H).
Qed.

Lemma bc_m n N : bc [n; 1%nat] [1%nat; N] = Some [n; N].
Proof. cbn -[Nat.eqb]. destruct (Nat.eqb_spec 1 N) as [<-|]; destruct (Nat.eqb_spec n 1) as [->|]; try reflexivity; rewrite ?(Nat.eqb_refl 1); reflexivity. Qed.
Ltac useE' H := match type of H with ?lhs = ?rhs => match goal with |- context [rbind (rbind ?e ?f) ?g] => replace e with rhs by (symmetry; exact H) end end.
Ltac useE H := match type of H with ?lhs = ?rhs => match goal with |- context [rbind ?e ?f] => replace e with rhs by (symmetry; exact H) end end.

Section L.
Variables (u1 u2 : R) (A : orbit_api) (ld : bool) (n : nat) (P : nat -> R -> R * R * R) (rst : nat -> R).
Hypothesis Hd : disk_flux u1 u2 <> 0.
Hypothesis HA : answers A ld n P.
Hypothesis Hrs : planet_numbers n (oa_r_star A) rst.
Hypothesis Hrs0 : forall j, (j < n)%nat -> rst j <> 0.
Let l := ld_init (Fin u1) (Fin u2).
Variables (r : tens) (rs : nat -> R).
Hypothesis Hr : elements n r rs.
Variables (N : nat) (t : tens) (ts : nat -> R).
Hypothesis Ht : is_vector N t.
Hypothesis Hts : forall m, (m < N)%nat -> aget t (at_time m) = Fin (ts m).
Let r' := areshape (rmap (fun s => [prod s]) (ash r)) r.
Lemma r_sh : ash r' = Ok [n].
Proof. destruct Hr as [(s & Es & Ep) _]. unfold r'. rewrite Es. cbn [rmap]. refine (eq_trans (reshape_sh r s [prod s] Es _) _); [cbn; lia|]. rewrite Ep. reflexivity. Qed.
Lemma r_val : forall i, (i O < n)%nat -> aget r' i = Fin (rs (i O)).
Proof.
  intros i Hi. destruct Hr as [(s & Es & Ep) V]. unfold r'. rewrite Es. cbn [rmap]. refine (eq_trans (reshape_at r s [prod s] i Es) _). rewrite Ep.
  replace (lin [n] i) with (i O); [apply V; exact Hi|]. cbn. destruct (Nat.eqb_spec n 1); lia.
Qed.

(** what the mean over the exposure is *)
Variables (nodes weights : list R) (es : nat -> R).
Variables (texp : option tens) (os order : Z).
Hypothesis He : match texp with None => True | Some e => exposures N e es /\ stencil os order = Ok (nodes, weights) end.
Definition mean_flux (m j : nat) : R :=
  match texp with None => fluxj u1 u2 P rst rs j (ts m) | Some _ => node_mean nodes weights (fluxj u1 u2 P rst rs j) (ts m) (es m) end.

Lemma plain_ok : exists X, get_light_curve_checked l A r t texp os order false ld = Ok X /\ light_table n N X mean_flux.
Proof.
  unfold get_light_curve_checked, mean_flux. cbv zeta. fold r'. cbn [rbind]. destruct texp as [e|].
  - destruct He as [(We & Ee) St]. rewrite St. cbn [rbind]. assert (HL := stencil_len _ _ _ _ St).
    assert (An : andim t = 1%nat) by (unfold andim; rewrite (proj2 Ht); reflexivity). rewrite An. destruct Ee as [[Se Ve]|[Se Ve]].
    + assert (E0 : andim e = O) by (unfold andim; rewrite Se; reflexivity). rewrite E0. cbn [Nat.eqb rbind].
      destruct (core_exp u1 u2 A ld n P rst Hd HA Hrs Hrs0 r' rs r_sh r_val N t ts e es nodes weights Ht Hts (or_introl Se) We) as (X & EX & TX); [|exact HL|].
      { intros i Hi. rewrite (We _ Se i ix0); [apply Ve|]. intros k Hk. destruct k; cbn in Hk; contradiction. }
      fold l in EX. useE EX. cbn [rbind]. rewrite (proj1 TX). cbn [rbind]. exists X. split; [reflexivity|exact TX].
    + assert (E0 : andim e = 1%nat) by (unfold andim; rewrite Se; reflexivity). rewrite E0. cbn [Nat.eqb rbind].
      destruct (core_exp u1 u2 A ld n P rst Hd HA Hrs Hrs0 r' rs r_sh r_val N t ts (apadr e) es nodes weights Ht Hts) as (X & EX & TX); [| | |exact HL|].
      { right. unfold apadr. cbn [ash]. rewrite Se. reflexivity. }
      { intros s Hs i i' Hi. unfold apadr in Hs |- *. cbn [ash aget] in *. rewrite Se in Hs. cbn in Hs. injection Hs as <-. apply (We _ Se).
        intros k Hk. apply (Hi (S k)). exact Hk. }
      { intros i Hi. unfold apadr. cbn [aget]. assert (H1 := Hi 1%nat ltac:(cbn; lia)). cbn in H1. rewrite (We _ Se _ (at_time (i 1%nat))); [apply Ve; exact H1|].
        intros k Hk. destruct k as [|k]; [reflexivity|destruct k; cbn in Hk; contradiction]. }
      fold l in EX. useE EX. cbn [rbind]. rewrite (proj1 TX). cbn [rbind]. exists X. split; [reflexivity|exact TX].
  - destruct (core_none u1 u2 A ld n P rst Hd HA Hrs Hrs0 r' rs r_sh r_val N t ts Ht Hts) as (X & EX & TX).
    fold l in EX. cbn [rbind]. useE EX. cbn [rbind]. rewrite (proj1 TX). cbn [rbind]. exists X. split; [reflexivity|exact TX].
Qed.

Variable inds : list nat.
Hypothesis Hi : oa_in_transit A t r' texp ld = Ok inds.
Hypothesis Hb : forall m, In m inds -> (m < N)%nat.
Lemma inds_ok : forallb (fun q => Nat.ltb q N) inds = true.
Proof. apply forallb_forall. intros q Hq. apply Nat.ltb_lt, Hb, Hq. Qed.
Lemma nth_lt q : (q < length inds)%nat -> (nth q inds O < N)%nat.
Proof. intro H. apply Hb, nth_In, H. Qed.
Lemma gather_vec (x : tens) (xs : nat -> R) : is_vector N x -> (forall m, (m < N)%nat -> aget x (at_time m) = Fin (xs m)) ->
  exists y, agather x inds = Ok y /\ is_vector (length inds) y /\ (forall q, (q < length inds)%nat -> aget y (at_time q) = Fin (xs (nth q inds O))).
Proof.
  intros [W E] V. unfold agather. rewrite E. cbn [last length removelast app Nat.sub]. rewrite inds_ok. eexists. split; [reflexivity|]. split; [split; [|reflexivity]|].
  - intros s Hs i i' Hi'. cbn [ash aget] in *. injection Hs as <-. apply (W _ E). intros k Hk. unfold set_ix. destruct k as [|k]; [|destruct k; cbn in Hk; contradiction].
    cbn [Nat.eqb]. f_equal. unfold coord. destruct (Nat.eqb_spec (length inds) 1); [reflexivity|]. apply Hi'. cbn. assumption.
  - intros q Hq. cbn [aget]. rewrite (W _ E _ (at_time (nth q inds O))); [apply V, nth_lt, Hq|].
    intros k Hk. destruct k as [|k]; [|destruct k; cbn in Hk; contradiction]. unfold set_ix, coord. cbn [Nat.eqb at_time].
    destruct (Nat.eqb_spec (length inds) 1); [|reflexivity]. f_equal. lia.
Qed.
Lemma model_sh : ash (nadd (apadl 1 (nzl r')) (apadr (nzl t)) : tens) = Ok [n; N].
Proof.
  unfold apadl, apadr. cbn [nadd nzl NumT amap2 amap ash]. rewrite r_sh, (proj2 Ht). cbn [rmap bcr app repeat]. refine (f_equal (fun o => match o with Some c => Ok c | None => Err ShapeErr end) (bc_m n N)).
Qed.
Lemma set_ok (lc : tens) f : light_table n (length inds) lc f ->
  let out := aset_rows (nadd (apadl 1 (nzl r')) (apadr (nzl t))) inds lc in
  ash out = Ok [n; N] /\ forall m j, (m < N)%nat -> (j < n)%nat ->
    (In m inds -> exists p, (p < length inds)%nat /\ nth p inds O = m /\ aget out (at_tp m j) = Fin (f p j)) /\
    (~ In m inds -> aget out (at_tp m j) = Fin 0).
Proof.
  intros [Sl Vl]. cbv zeta. unfold aset_rows. rewrite model_sh, Sl. cbn [last length removelast app Nat.sub]. rewrite inds_ok. cbn [ash aget].
  destruct (list_eq_dec Nat.eq_dec [n; length inds] [n; length inds]) as [_|C]; [|contradiction]. split; [reflexivity|].
  intros m j Hm Hj. assert (Em : coord N (at_tp m j 1%nat) = m) by (unfold coord, at_tp; destruct (Nat.eqb_spec N 1); lia). rewrite Em. split; intro H.
  - destruct (pos_in m inds) as [p|] eqn:E; [|apply pos_in_none in E; contradiction]. destruct (pos_in_some _ _ _ E) as [Hp1 Hp2]. exists p. split; [exact Hp1|]. split; [exact Hp2|].
    replace (set_ix 1 p (at_tp m j)) with (at_tp p j); [apply Vl; assumption|]. apply functional_extensionality. intros [|[|k]]; reflexivity.
  - apply pos_in_none in H. rewrite H. unfold apadl, apadr. cbn [nadd nzl NumT amap2 amap aget fadd]. f_equal. ring.
Qed.
Lemma masked_ok : exists X, get_light_curve_checked l A r t texp os order true ld = Ok X /\ ash X = Ok [n; N] /\
  forall m j, (m < N)%nat -> (j < n)%nat -> (In m inds -> aget X (at_tp m j) = Fin (mean_flux m j)) /\ (~ In m inds -> aget X (at_tp m j) = Fin 0).
Proof.
  unfold get_light_curve_checked, mean_flux. cbv zeta. fold r'. rewrite Hi. cbn [rmap rbind].
  assert (An : andim t = 1%nat) by (unfold andim; rewrite (proj2 Ht); reflexivity). rewrite An.
  destruct (gather_vec t ts Ht Hts) as (t' & Et & Vt & Vt'). rewrite Et. cbn [rbind].
  assert (Fin' : forall lc f g, light_table n (length inds) lc f -> (forall p j, (p < length inds)%nat -> f p j = g (nth p inds O) j) ->
     exists X, (_ <- ash (aset_rows (nadd (apadl 1 (nzl r')) (apadr (nzl t))) inds lc) ;; Ok (aset_rows (nadd (apadl 1 (nzl r')) (apadr (nzl t))) inds lc)) = Ok X /\ ash X = Ok [n; N] /\
     forall m j, (m < N)%nat -> (j < n)%nat -> (In m inds -> aget X (at_tp m j) = Fin (g m j)) /\ (~ In m inds -> aget X (at_tp m j) = Fin 0)).
  { intros lc f g T E. destruct (set_ok lc f T) as [S V]. rewrite S. cbn [rbind]. eexists. split; [reflexivity|]. split; [exact S|].
    intros m j Hm Hj. destruct (V m j Hm Hj) as [V1 V2]. split; [|exact V2]. intro HI. destruct (V1 HI) as (p & Hp & <- & Ep). rewrite Ep, (E p j Hp). reflexivity. }
  destruct texp as [e|].
  - destruct He as [(We & Ee) St]. rewrite St. cbn [rbind]. assert (HL := stencil_len _ _ _ _ St). destruct Ee as [[Se Ve]|[Se Ve]].
    + assert (E0 : andim e = O) by (unfold andim; rewrite Se; reflexivity). rewrite E0. cbn [Nat.eqb rbind].
      destruct (core_exp u1 u2 A ld n P rst Hd HA Hrs Hrs0 r' rs r_sh r_val (length inds) t' (fun q => ts (nth q inds O)) e (fun q => es (nth q inds O)) nodes weights Vt Vt' (or_introl Se) We) as (X & EX & TX); [|exact HL|].
      { intros i Hi'. rewrite (We _ Se i ix0); [apply Ve|]. intros k Hk. destruct k; cbn in Hk; contradiction. }
      fold l in EX. useE EX. cbn [rbind]. apply (Fin' X _ (fun m j => node_mean nodes weights (fluxj u1 u2 P rst rs j) (ts m) (es m)) TX). intros; reflexivity.
    + assert (E0 : andim e = 1%nat) by (unfold andim; rewrite Se; reflexivity). rewrite E0. cbn [Nat.eqb].
      destruct (gather_vec e es (conj We Se) Ve) as (e' & Ee & Ve1 & Ve2). rewrite Ee. cbn [rmap rbind].
      destruct (core_exp u1 u2 A ld n P rst Hd HA Hrs Hrs0 r' rs r_sh r_val (length inds) t' (fun q => ts (nth q inds O)) (apadr e') (fun q => es (nth q inds O)) nodes weights Vt Vt') as (X & EX & TX); [| | |exact HL|].
      { right. unfold apadr. cbn [ash]. rewrite (proj2 Ve1). reflexivity. }
      { intros s Hs i i' Hii. unfold apadr in Hs |- *. cbn [ash aget] in *. rewrite (proj2 Ve1) in Hs. cbn in Hs. injection Hs as <-. apply (proj1 Ve1 _ (proj2 Ve1)).
        intros k Hk. apply (Hii (S k)). exact Hk. }
      { intros i Hii. unfold apadr. cbn [aget]. assert (H1 := Hii 1%nat ltac:(cbn; lia)). cbn in H1. rewrite (proj1 Ve1 _ (proj2 Ve1) _ (at_time (i 1%nat))); [apply Ve2; exact H1|].
        intros k Hk. destruct k as [|k]; [reflexivity|destruct k; cbn in Hk; contradiction]. }
      fold l in EX. useE EX. cbn [rbind]. apply (Fin' X _ (fun m j => node_mean nodes weights (fluxj u1 u2 P rst rs j) (ts m) (es m)) TX). intros; reflexivity.
  - destruct (core_none u1 u2 A ld n P rst Hd HA Hrs Hrs0 r' rs r_sh r_val (length inds) t' (fun q => ts (nth q inds O)) Vt Vt') as (X & EX & TX).
    fold l in EX. useE EX. cbn [rbind]. apply (Fin' X _ (fun m j => fluxj u1 u2 P rst rs j (ts m)) TX). intros; reflexivity.
Qed.
End L.

(** radii that do not match the planets *)
Section M.
Variables (lm : limbdark) (A : orbit_api) (ld : bool) (n : nat) (P : nat -> R -> R * R * R).
Hypothesis HA : answers A ld n P.
Variables (r : tens) (s : shape).
Hypothesis Hr : ash r = Ok s.
Hypothesis Hm : prod s <> n.
Variables (N : nat) (t : tens) (ts : nat -> R).
Hypothesis HN : (0 < N)%nat.
Hypothesis Ht : is_vector N t.
Hypothesis Hts : forall m, (m < N)%nat -> aget t (at_time m) = Fin (ts m).
Lemma radii_mismatch texp es os order : match texp with None => True | Some e => exposures N e es /\ exists x w, stencil os order = Ok (x, w) end ->
  get_light_curve_checked lm A r t texp os order false ld = Err ShapeErr.
Proof.
  intro He. unfold get_light_curve_checked. cbv zeta. rewrite Hr. cbn [rmap rbind].
  set (r' := areshape _ r). assert (Er : ash r' = Ok [prod s]) by (unfold r'; apply (reshape_sh r s [prod s] Hr); cbn; lia).
  destruct texp as [e|].
  - destruct He as ((We & Ee) & nodes & weights & St). rewrite St. cbn [rbind]. assert (HL := stencil_len _ _ _ _ St).
    assert (G : forall e' : tens, (ash e' = Ok [] \/ ash e' = Ok [1%nat; N]) -> twf e' -> (forall i, inside [length nodes; N] i -> aget e' i = Fin (es (i 1%nat))) ->
      length nodes <> O ->
      (lc <- (lc <- grid_flux lm A r' (nadd (apadr t) (nmul e' (avec nodes))) ld ;; Ok (asum1 (nmul (apadr (apadl (andim t) (avec weights))) lc))) ;; (_ <- ash lc ;; Ok lc)) = Err ShapeErr).
    { intros e' S1 W1 V1 HK. destruct (tgrid_facts N t ts e' es nodes Ht Hts S1 W1 V1) as (F1 & F2 & F3).
      destruct (grid_bad A ld n P HA lm (prod s) [length nodes; N] _ _ Hm ltac:(cbn; nia) F1 F2 F3 r' Er) as (X & EX & SX).
      useE' EX. cbn [rbind]. unfold asum1. cbn [nmul NumT amap2 ash]. rewrite SX. unfold apadr, apadl, avec. cbn. reflexivity. }
    assert (HK : length nodes <> O).
    { revert St. unfold stencil, odd_number. destruct (_ <? 0)%Z eqn:Ez; cbn [rbind]; [discriminate|]. set (K := Z.to_nat _).
      assert (0 < K)%nat. { unfold K. apply Z.ltb_ge in Ez. assert (Hodd : (os + (1 - os mod 2) <> 0)%Z). { intro C. assert (Z.even (os + (1 - os mod 2)) = true) by (rewrite C; reflexivity).
          rewrite Z.even_add, Z.even_sub in H. rewrite Zmod_even in H. destruct (Z.even os); cbn in H; discriminate. } lia. }
      rewrite HL. unfold normalised.
      destruct (order =? 0)%Z; [|destruct (order =? 1)%Z; [|destruct (order =? 2)%Z; [|discriminate]]]; intro E; injection E as _ <-; rewrite ?map_length, ?seq_length, ?repeat_length; lia. }
    destruct Ee as [[Se Ve]|[Se Ve]].
    + assert (E0 : andim e = O) by (unfold andim; rewrite Se; reflexivity). rewrite E0. cbn [Nat.eqb rbind]. apply G; [left; exact Se|exact We| |exact HK].
      intros i Hi. rewrite (We _ Se i ix0); [apply Ve|]. intros k Hk. destruct k; cbn in Hk; contradiction.
    + assert (E0 : andim e = 1%nat) by (unfold andim; rewrite Se; reflexivity). rewrite E0. cbn [Nat.eqb rbind]. apply G; [| | |exact HK].
      { right. unfold apadr. cbn [ash]. rewrite Se. reflexivity. }
      { intros s' Hs i i' Hi. unfold apadr in Hs |- *. cbn [ash aget] in *. rewrite Se in Hs. cbn in Hs. injection Hs as <-. apply (We _ Se).
        intros k Hk. apply (Hi (S k)). exact Hk. }
      { intros i Hi. unfold apadr. cbn [aget]. assert (H1 := Hi 1%nat ltac:(cbn; lia)). cbn in H1. rewrite (We _ Se _ (at_time (i 1%nat))); [apply Ve; exact H1|].
        intros k Hk. destruct k as [|k]; [reflexivity|destruct k; cbn in Hk; contradiction]. }
  - destruct (grid_bad A ld n P HA lm (prod s) [N] t (fun i => ts (i O)) Hm ltac:(cbn; lia) (proj2 Ht) (proj1 Ht)) with (r := r') as (X & EX & SX).
    { intros i Hi. rewrite (vec_at N t i Ht Hi). apply Hts. apply (Hi O). cbn. lia. }
    { exact Er. }
    cbn [rbind]. useE EX. cbn [rbind]. rewrite SX. reflexivity.
Qed.
End M.
