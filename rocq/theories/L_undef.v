(** * Light curves at undefined times *)
From Coq Require Import Reals Lra Lia List Bool Arith ZArith FunctionalExtensionality.
From Verif Require Import Num CoreOps Inst CoreFlux M_units M_kepler M_tensor M_limbdark Spec_orbit Spec_array Spec_light Spec_undef
  L_real L_fl L_flux L_tens L_shape L_transit3 L_shapeS L_reshape L_light1 L_light2 L_light3.
Import ListNotations.
Local Notation length := List.length.
Open Scope R_scope.

Lemma und_cases v : undefined v <-> (exists s, v = Inf s) \/ v = NaN.
Proof.
  split; [|intros [[s ->]| ->] x; discriminate]. destruct v as [x|s|]; intro H; [destruct (H x eq_refl)|left; exists s; reflexivity|right; reflexivity].
Qed.
Lemma und_dec v : undefined v \/ exists x, v = Fin x.
Proof. destruct v; [right; eexists; reflexivity|left; intros ?; discriminate|left; intros ?; discriminate]. Qed.
Lemma und_add a b : undefined a \/ undefined b -> undefined (fadd a b).
Proof.
  assert (G : forall a b, undefined a -> undefined (fadd a b) /\ undefined (fadd b a)).
  { intros u v H. apply und_cases in H. destruct H as [[s ->]| ->]; destruct v as [?|s'|]; cbn; try destruct s, s'; cbn; split; intros ?; discriminate. }
  intros [H|H]; apply (G _ _ H).
Qed.
Lemma und_neg a : undefined a -> undefined (fneg a).
Proof. intro H. apply und_cases in H. destruct H as [[s ->]| ->]; intros ?; discriminate. Qed.
Lemma und_sub a b : undefined a \/ undefined b -> undefined (fsub a b).
Proof. intros H. apply und_add. destruct H; [left|right; apply und_neg]; assumption. Qed.
Lemma und_mul a b : undefined a \/ undefined b -> undefined (fmul a b).
Proof.
  assert (G : forall a b, undefined a -> undefined (fmul a b) /\ undefined (fmul b a)).
  { intros u v H. apply und_cases in H. destruct H as [[s ->]| ->]; destruct v; cbn; try destruct (Reqb _ _); split; intros ?; discriminate. }
  intros [H|H]; apply (G _ _ H).
Qed.

(** lists of positions, element by element *)
Definition listsF (n : nat) (s : shape) (t X : tens) (sh : shape) (f : nat -> fl -> fl) : Prop :=
  ash X = Ok sh /\ forall i, inside (n :: s) i -> flat X (lin (n :: s) i) = f (i O) (aget t (fun k => i (S k))).
Definition answersF (A : orbit_api) (ld : bool) (n : nat) (P : nat -> fl -> fl * fl * fl) : Prop :=
  forall s t, ash t = Ok s -> twf t ->
  exists x y z sh, oa_pos A t ld = Ok (x, y, z) /\ prod sh = prod (n :: s) /\
    listsF n s t x sh (fun j t => fst (fst (P j t))) /\ listsF n s t y sh (fun j t => snd (fst (P j t))) /\ listsF n s t z sh (fun j t => snd (P j t)).
Definition planetF (n : nat) (a : tens) (v : nat -> fl) : Prop :=
  (ash a = Ok [] \/ ash a = Ok [n]) /\ forall i, (i O < n)%nat -> aget a i = v (i O).

Section L.
Variables (l : limbdark) (A : orbit_api) (ld : bool) (n : nat) (P : nat -> fl -> fl * fl * fl) (rst : nat -> fl).
Hypothesis HA : answersF A ld n P.
Hypothesis Hrs : planetF n (oa_r_star A) rst.
Variables (r : tens) (rs : nat -> fl).
Hypothesis Er : ash r = Ok [n].
Hypothesis Vr : forall i, (i O < n)%nat -> aget r i = rs (i O).

Definition fluxF (j : nat) (t : fl) : fl :=
  if flt (Fin 0) (fdiv (snd (P j t)) (rst j))
  then fquad (ld_c l) (fdiv (fsqrt (fadd (fmul (fst (fst (P j t))) (fst (fst (P j t)))) (fmul (snd (fst (P j t))) (snd (fst (P j t)))))) (rst j))
         (fdiv (fadd (rs j) (Fin 0)) (rst j))
  else Fin 0.

Lemma gridF s t : ash t = Ok s -> twf t ->
  exists X, grid_flux l A r t ld = Ok X /\ ash X = Ok (n :: s) /\
    forall i, inside (n :: s) i -> aget X i = fluxF (i O) (aget t (fun k => i (S k))).
Proof.
  intros Es Wt. destruct (HA s t Es Wt) as (x & y & z & sh & Ep & Eprod & (Sx & Lx) & (Sy & Ly) & (Sz & Lz)).
  unfold grid_flux. rewrite Ep. cbn [rbind]. cbv zeta.
  match goal with |- context [areshape (ash ?x) _] => set (rg := x) end.
  assert (Erg : ash rg = Ok (n :: s)).
  { unfold rg, apadl, apadr, andim. cbn [nadd nzl NumT amap2 amap ash]. rewrite Er, Es. cbn [rmap bcr]. change ([n] ++ repeat 1%nat (length s)) with (n :: repeat 1%nat (length s)).
    cbn [bc]. rewrite bc_ones. destruct (Nat.eqb_spec n 1) as [->|]; [reflexivity|]. destruct n as [|[|?]]; try reflexivity; lia. }
  rewrite Erg. eexists. split; [reflexivity|].
  match goal with |- context [areshape (Ok (n :: s)) (nsqrt ?x)] => set (b := nsqrt x) end.
  assert (Sb : ash b = Ok sh). { unfold b. cbn [nsqrt nadd NumT npw nmul amap ash]. apply sh_map2; apply sh_map2; assumption. }
  assert (S2 : forall X : tens, ash X = Ok sh -> ash (areshape (Ok (n :: s)) X) = Ok (n :: s)) by (intros X HX; apply (reshape_sh X sh); assumption).
  assert (S3 : forall X : tens, ash X = Ok (n :: s) -> ash (X / oa_r_star A)%num = Ok (n :: s)).
  { intros X HX. cbn [ndiv NumT amap2 ash]. rewrite HX. destruct Hrs as [[E|E] _]; rewrite E; cbn [bcr]; [rewrite bc_nil|rewrite bcS_Nn]; reflexivity. }
  split.
  - apply flux_sh; apply S3; [apply S2; exact Sb|exact Erg|apply S2; exact Sz].
  - intros i Hi. destruct (inside_cons _ _ _ Hi) as [Hi0 Hi1].
    assert (Vs := proj2 Hrs i Hi0).
    assert (Eb : flat b (lin (n :: s) i) = fsqrt (fadd (fmul (fst (fst (P (i O) (aget t (fun k => i (S k)))))) (fst (fst (P (i O) (aget t (fun k => i (S k)))))))
       (fmul (snd (fst (P (i O) (aget t (fun k => i (S k)))))) (snd (fst (P (i O) (aget t (fun k => i (S k))))))))).
    { unfold b. cbn [nsqrt nadd NumT npw nmul]. rewrite flat_map1.
      rewrite (flat_map2 fadd _ _ sh _ (sh_map2 _ _ _ _ Sx Sx) (sh_map2 _ _ _ _ Sy Sy)).
      rewrite (flat_map2 fmul _ _ sh _ Sx Sx), (flat_map2 fmul _ _ sh _ Sy Sy), (Lx i Hi), (Ly i Hi). reflexivity. }
    unfold compute_light_curve, quad_light_curve, fluxF. cbn [nsw nlt nlit nzl ndiv NumT amap3 amap2 amap alit aget].
    rewrite Vs, (reshape_at b sh _ _ Sb), (reshape_at z sh _ _ Sz), (Lz i Hi), Eb.
    unfold rg, apadl, apadr. cbn [nadd nzl NumT amap2 amap aget]. rewrite (Vr i Hi0). reflexivity.
Qed.

Definition tableF (N : nat) (X : tens) (f : nat -> nat -> fl) : Prop :=
  ash X = Ok [n; N] /\ forall m j, (m < N)%nat -> (j < n)%nat -> aget X (at_tp m j) = f m j.

Lemma core_noneF N t : is_vector N t ->
  exists X, grid_flux l A r t ld = Ok X /\ tableF N X (fun m j => fluxF j (aget t (at_time m))).
Proof.
  intros Ht. destruct (gridF [N] t (proj2 Ht) (proj1 Ht)) as (X & E & S & V).
  exists X. split; [exact E|]. split; [exact S|]. intros m j Hm Hj. rewrite V by (apply inside_tp; assumption). reflexivity.
Qed.

Lemma tgridF N t e (eF : nat -> fl) (nodes : list R) :
  is_vector N t -> (ash e = Ok [] \/ ash e = Ok [1%nat; N]) -> twf e ->
  (forall i, inside [length nodes; N] i -> aget e i = eF (i 1%nat)) ->
  let tg := nadd (apadr t) (nmul e (avec nodes)) in
  ash tg = Ok [length nodes; N] /\ twf tg /\
  forall i, inside [length nodes; N] i -> aget tg i = fadd (aget t (at_time (i 1%nat))) (fmul (eF (i 1%nat)) (Fin (nth (i O) nodes 0))).
Proof.
  intros Ht Se We He. cbv zeta. set (K := length nodes) in *. set (tg := nadd (apadr t) (nmul e (avec nodes))).
  assert (B1 : forall s : shape, bc (1%nat :: s) [K] = Some (K :: s)) by (intro s; cbn [bc]; rewrite bc_nil; destruct K as [|[|?]]; reflexivity).
  assert (B2 : forall s : shape, bc (1%nat :: s) (K :: s) = Some (K :: s)) by (intro s; cbn [bc]; rewrite bc_refl; destruct K as [|[|?]]; reflexivity).
  assert (St : ash tg = Ok [K; N]).
  { unfold tg, apadr, avec. cbn [nadd nmul NumT amap2 ash]. rewrite (proj2 Ht). fold K. destruct Se as [Se|Se]; rewrite Se; cbn [rmap bcr].
    - change (bc [] [K]) with (Some [K]). cbn [bcr]. rewrite B1. reflexivity.
    - rewrite B1. cbn [bcr]. rewrite B2. reflexivity. }
  assert (Wt : twf tg).
  { intros s Hs i i' Hi. rewrite St in Hs. injection Hs as <-. unfold tg, apadr, avec. cbn [nadd nmul NumT amap2 aget]. fold K. f_equal; [|f_equal].
    - apply (proj1 Ht _ (proj2 Ht)). intros k Hk. apply (Hi (S k)). cbn. destruct k as [|k]; [exact Hk|destruct k; cbn in Hk; contradiction].
    - destruct Se as [Se|Se]; apply (We _ Se); intros k Hk.
      + destruct k; cbn in Hk; contradiction.
      + apply Hi. destruct k as [|[|k]]; cbn in *; try contradiction; try assumption.
    - f_equal. unfold coord. destruct (Nat.eqb_spec K 1); [reflexivity|]. f_equal. apply (Hi O). cbn. assumption. }
  split; [exact St|]. split; [exact Wt|].
  intros i Hi. unfold tg, apadr, avec. cbn [nadd nmul NumT amap2 aget]. fold K. destruct (inside_cons _ _ _ Hi) as [H0 H1].
  rewrite (vec_at N t _ Ht H1), (He i Hi).
  unfold coord. destruct (Nat.eqb_spec K 1); [|reflexivity]. replace (i O) with O by lia. reflexivity.
Qed.

Definition meanF (nodes weights : list R) (j : nat) (t e : fl) : fl :=
  fsum (map (fun k => fmul (Fin (nth k weights 0)) (fluxF j (fadd t (fmul e (Fin (nth k nodes 0)))))) (seq 0 (length nodes))).

Lemma core_expF N t e eF nodes weights :
  is_vector N t -> (ash e = Ok [] \/ ash e = Ok [1%nat; N]) -> twf e ->
  (forall i, inside [length nodes; N] i -> aget e i = eF (i 1%nat)) ->
  length nodes = length weights ->
  exists X, (lc <- grid_flux l A r (nadd (apadr t) (nmul e (avec nodes))) ld ;;
             Ok (asum1 (nmul (apadr (apadl 1 (avec weights))) lc))) = Ok X /\
    tableF N X (fun m j => meanF nodes weights j (aget t (at_time m)) (eF m)).
Proof.
  intros Ht Se We He HL. set (K := length nodes) in *. set (tg := nadd (apadr t) (nmul e (avec nodes))).
  destruct (tgridF N t e eF nodes Ht Se We He) as (St & Wt & Vt). fold K in St, Vt. fold tg in St, Wt, Vt.
  destruct (gridF [K; N] tg St Wt) as (Y & E & S & V).
  rewrite E. cbn [rbind]. eexists. split; [reflexivity|].
  assert (Sw : ash (nmul (apadr (apadl 1 (avec weights))) Y) = Ok [n; K; N]).
  { unfold apadr, apadl, avec. cbn [nmul NumT amap2 ash rmap app repeat]. rewrite S, <- HL. fold K. cbn [bcr app repeat].
    exact (f_equal (fun o => match o with Some c => Ok c | None => Err ShapeErr end) (bc_w n K N)). }
  split.
  - unfold asum1. rewrite Sw. reflexivity.
  - intros m j Hm Hj. unfold asum1. rewrite Sw. cbn [aget at_tp]. unfold meanF. fold K. f_equal. apply map_ext_in.
    intros k Hk. apply in_seq in Hk. destruct Hk as [_ Hk]. cbn in Hk.
    unfold apadr, apadl, avec. cbn [nmul NumT amap2 aget]. rewrite <- HL. fold K.
    assert (HI : inside [K; N] (cons_ix k (fun q => at_tp m j (Datatypes.S q)))) by (apply inside_cons_ix; [exact Hk|]; intros q Hq; destruct q as [|q]; cbn in *; [exact Hm|lia]).
    rewrite V.
    + cbn [cons_ix at_tp]. f_equal.
      * unfold coord. destruct (Nat.eqb_spec K 1); [|reflexivity]. replace k with O by lia. reflexivity.
      * f_equal. etransitivity; [apply (Vt _ HI)|]. reflexivity.
    + apply inside_cons_ix; [exact Hj|]. exact HI.
Qed.
End L.

Section M.
Variables (l : limbdark) (A : orbit_api) (ld : bool) (n : nat) (P : nat -> fl -> fl * fl * fl) (rst : nat -> fl).
Hypothesis HA : answersF A ld n P.
Hypothesis Hrs : planetF n (oa_r_star A) rst.
Variables (r : tens) (sr : shape).
Hypothesis Sr : ash r = Ok sr.
Hypothesis Pr : prod sr = n.
Let rs j := flat r j.
Let r' := areshape (rmap (fun s => [prod s]) (ash r)) r.
Lemma rF_sh : ash r' = Ok [n].
Proof. unfold r'. rewrite Sr. cbn [rmap]. refine (eq_trans (reshape_sh r sr [prod sr] Sr _) _); [cbn; lia|]. rewrite Pr. reflexivity. Qed.
Lemma rF_val : forall i, (i O < n)%nat -> aget r' i = rs (i O).
Proof.
  intros i Hi. unfold r'. rewrite Sr. cbn [rmap]. refine (eq_trans (reshape_at r sr [prod sr] i Sr) _). rewrite Pr.
  replace (lin [n] i) with (i O); [reflexivity|]. cbn. destruct (Nat.eqb_spec n 1); lia.
Qed.
Lemma rF_sn : Sn n r'.
Proof.
  right. split; [exact rF_sh|]. intros i i' E. unfold r'. rewrite Sr. cbn [rmap]. rewrite !(reshape_at r sr [prod sr] _ Sr). cbn [lin]. rewrite E. reflexivity.
Qed.

(** one entry *)
Definition rowF (texp : option tens) (nodes weights : list R) (j : nat) (t e : fl) : fl :=
  match texp with None => fluxF l P rst rs j t | Some _ => meanF l P rst rs nodes weights j t e end.
Hypothesis HP : forall j t, undefined t -> flt (Fin 0) (fdiv (snd (P j t)) (rst j)) = false.
Lemma row_zero texp nodes weights j t e : undefined t \/ (texp <> None /\ undefined e) -> rowF texp nodes weights j t e = Fin 0.
Proof.
  assert (Z : forall t, undefined t -> fluxF l P rst rs j t = Fin 0) by (intros u Hu; unfold fluxF; rewrite (HP j u Hu); reflexivity).
  unfold rowF. destruct texp as [te|].
  - intro H. unfold meanF. assert (G : forall ks, fold_left fadd (map (fun k => fmul (Fin (nth k weights 0)) (fluxF l P rst rs j (fadd t (fmul e (Fin (nth k nodes 0)))))) ks) (Fin 0) = Fin 0).
    { induction ks as [|k ks IH]; [reflexivity|]. cbn [map fold_left]. rewrite Z.
      - cbn [fmul fadd]. rewrite Rmult_0_r, Rplus_0_r. exact IH.
      - apply und_add. destruct H as [H|[_ H]]; [left; exact H|right; apply und_mul; left; exact H]. }
    apply G.
  - intros [H|[H _]]; [apply Z; exact H|contradiction].
Qed.

Variables (N : nat) (t : tens) (texp : option tens) (ev : nat -> fl) (osam order : Z) (nodes weights : list R).
Hypothesis Ht : is_vector N t.
Hypothesis He : exposure_values N texp ev.
Hypothesis St : stencil osam order = Ok (nodes, weights).

Lemma plainF : exists X, get_light_curve_checked l A r t texp osam order false ld = Ok X /\
  tableF n N X (fun m j => rowF texp nodes weights j (aget t (at_time m)) (ev m)).
Proof.
  unfold get_light_curve_checked, rowF. cbv zeta. fold r'. cbn [rbind]. destruct texp as [e|].
  - destruct He as [We Ee]. rewrite St. cbn [rbind]. assert (HL := stencil_len _ _ _ _ St).
    assert (An : andim t = 1%nat) by (unfold andim; rewrite (proj2 Ht); reflexivity). rewrite An. destruct Ee as [[Se Ve]|[Se Ve]].
    + assert (E0 : andim e = O) by (unfold andim; rewrite Se; reflexivity). rewrite E0. cbn [Nat.eqb rbind].
      destruct (core_expF l A ld n P rst HA Hrs r' rs rF_sh rF_val N t e ev nodes weights Ht (or_introl Se) We) as (X & EX & TX); [|exact HL|].
      { intros i Hi. rewrite (We _ Se i ix0); [symmetry; apply Ve|]. intros k Hk. destruct k; cbn in Hk; contradiction. }
      useE EX. cbn [rbind]. rewrite (proj1 TX). cbn [rbind]. exists X. split; [reflexivity|exact TX].
    + assert (E0 : andim e = 1%nat) by (unfold andim; rewrite Se; reflexivity). rewrite E0. cbn [Nat.eqb rbind].
      destruct (core_expF l A ld n P rst HA Hrs r' rs rF_sh rF_val N t (apadr e) ev nodes weights Ht) as (X & EX & TX); [| | |exact HL|].
      { right. unfold apadr. cbn [ash]. rewrite Se. reflexivity. }
      { intros s Hs i i' Hi. unfold apadr in Hs |- *. cbn [ash aget] in *. rewrite Se in Hs. cbn in Hs. injection Hs as <-. apply (We _ Se).
        intros k Hk. apply (Hi (S k)). exact Hk. }
      { intros i Hi. unfold apadr. cbn [aget]. assert (H1 := Hi 1%nat ltac:(cbn; lia)). cbn in H1. rewrite (We _ Se _ (at_time (i 1%nat))); [symmetry; apply Ve; exact H1|].
        intros k Hk. destruct k as [|k]; [reflexivity|destruct k; cbn in Hk; contradiction]. }
      useE EX. cbn [rbind]. rewrite (proj1 TX). cbn [rbind]. exists X. split; [reflexivity|exact TX].
  - destruct (core_noneF l A ld n P rst HA Hrs r' rs rF_sh rF_val N t Ht) as (X & EX & TX).
    cbn [rbind]. useE EX. cbn [rbind]. rewrite (proj1 TX). cbn [rbind]. exists X. split; [reflexivity|exact TX].
Qed.

(** with a mask and at most one exposure time *)
Hypothesis H1 : single texp.
Variable inds : list nat.
Hypothesis Hi : oa_in_transit A t r' texp ld = Ok inds.
Hypothesis Hb : forall m, In m inds -> (m < N)%nat.
Lemma gatherF : exists y, agather t inds = Ok y /\ is_vector (length inds) y /\ (forall q, (q < length inds)%nat -> aget y (at_time q) = aget t (at_time (nth q inds O))).
Proof.
  destruct Ht as [W E]. unfold agather. rewrite E. cbn [last length removelast app Nat.sub]. rewrite (inds_ok N inds Hb). eexists. split; [reflexivity|]. split; [split; [|reflexivity]|].
  - intros s Hs i i' Hi'. cbn [ash aget] in *. injection Hs as <-. apply (W _ E). intros k Hk. unfold set_ix. destruct k as [|k]; [|destruct k; cbn in Hk; contradiction].
    cbn [Nat.eqb]. f_equal. unfold coord. destruct (Nat.eqb_spec (length inds) 1); [reflexivity|]. apply Hi'. cbn. assumption.
  - intros q Hq. cbn [aget]. apply (W _ E).
    intros k Hk. destruct k as [|k]; [|destruct k; cbn in Hk; contradiction]. unfold set_ix, coord. cbn [Nat.eqb at_time].
    destruct (Nat.eqb_spec (length inds) 1); [|reflexivity]. f_equal. lia.
Qed.
Lemma modelF_sh : ash (nadd (apadl 1 (nzl r')) (apadr (nzl t)) : tens) = Ok [n; N].
Proof.
  unfold apadl, apadr. cbn [nadd nzl NumT amap2 amap ash]. rewrite rF_sh, (proj2 Ht). cbn [rmap bcr app repeat]. refine (f_equal (fun o => match o with Some c => Ok c | None => Err ShapeErr end) (bc_m n N)).
Qed.
Lemma setF (lc : tens) f : tableF n (length inds) lc f ->
  let out := aset_rows (nadd (apadl 1 (nzl r')) (apadr (nzl t))) inds lc in
  ash out = Ok [n; N] /\ forall m j, (m < N)%nat -> (j < n)%nat ->
    (In m inds -> exists p, (p < length inds)%nat /\ nth p inds O = m /\ aget out (at_tp m j) = f p j) /\
    (~ In m inds -> aget out (at_tp m j) = Fin 0).
Proof.
  intros [Sl Vl]. cbv zeta. unfold aset_rows. rewrite modelF_sh, Sl. cbn [last length removelast app Nat.sub]. rewrite (inds_ok N inds Hb). cbn [ash aget].
  destruct (list_eq_dec Nat.eq_dec [n; length inds] [n; length inds]) as [_|C]; [|contradiction]. split; [reflexivity|].
  intros m j Hm Hj. assert (Em : coord N (at_tp m j 1%nat) = m) by (unfold coord, at_tp; destruct (Nat.eqb_spec N 1); lia). rewrite Em. split; intro H.
  - destruct (pos_in m inds) as [p|] eqn:E; [|apply pos_in_none in E; contradiction]. destruct (pos_in_some _ _ _ E) as [Hp1 Hp2]. exists p. split; [exact Hp1|]. split; [exact Hp2|].
    replace (set_ix 1 p (at_tp m j)) with (at_tp p j); [apply Vl; assumption|]. apply functional_extensionality. intros [|[|k]]; reflexivity.
  - apply pos_in_none in H. rewrite H. unfold apadl, apadr. cbn [nadd nzl NumT amap2 amap aget fadd]. f_equal. ring.
Qed.
Lemma maskedF : exists X, get_light_curve_checked l A r t texp osam order true ld = Ok X /\ ash X = Ok [n; N] /\
  forall m j, (m < N)%nat -> (j < n)%nat ->
    (In m inds -> aget X (at_tp m j) = rowF texp nodes weights j (aget t (at_time m)) (ev m)) /\ (~ In m inds -> aget X (at_tp m j) = Fin 0).
Proof.
  unfold get_light_curve_checked, rowF. cbv zeta. fold r'. rewrite Hi. cbn [rmap rbind].
  assert (An : andim t = 1%nat) by (unfold andim; rewrite (proj2 Ht); reflexivity). rewrite An.
  destruct gatherF as (t' & Et & Vt & Vt'). rewrite Et. cbn [rbind].
  assert (Fin' : forall lc f g, tableF n (length inds) lc f -> (forall p j, (p < length inds)%nat -> f p j = g (nth p inds O) j) ->
     exists X, (_ <- ash (aset_rows (nadd (apadl 1 (nzl r')) (apadr (nzl t))) inds lc) ;; Ok (aset_rows (nadd (apadl 1 (nzl r')) (apadr (nzl t))) inds lc)) = Ok X /\ ash X = Ok [n; N] /\
     forall m j, (m < N)%nat -> (j < n)%nat -> (In m inds -> aget X (at_tp m j) = g m j) /\ (~ In m inds -> aget X (at_tp m j) = Fin 0)).
  { intros lc f g T E. destruct (setF lc f T) as [S V]. rewrite S. cbn [rbind]. eexists. split; [reflexivity|]. split; [exact S|].
    intros m j Hm Hj. destruct (V m j Hm Hj) as [V1 V2]. split; [|exact V2]. intro HI. destruct (V1 HI) as (p & Hp & <- & Ep). rewrite Ep, (E p j Hp). reflexivity. }
  destruct texp as [e|].
  - destruct He as [We Ee]. rewrite St. cbn [rbind]. assert (HL := stencil_len _ _ _ _ St). assert (Se := H1 e eq_refl).
    assert (Ve : forall m, (m < N)%nat -> ev m = aget e ix0).
    { destruct Ee as [[_ Ve]|[C _]]; [intros; apply Ve|]. rewrite Se in C. discriminate C. }
    assert (E0 : andim e = O) by (unfold andim; rewrite Se; reflexivity). rewrite E0. cbn [Nat.eqb rbind].
    destruct (core_expF l A ld n P rst HA Hrs r' rs rF_sh rF_val (length inds) t' e (fun _ => aget e ix0) nodes weights Vt (or_introl Se) We) as (X & EX & TX); [|exact HL|].
    { intros i Hi'. apply (We _ Se i ix0). intros k Hk. destruct k; cbn in Hk; contradiction. }
    useE EX. cbn [rbind]. apply (Fin' X _ (fun m j => meanF l P rst rs nodes weights j (aget t (at_time m)) (ev m)) TX).
    intros p j Hp. rewrite (Vt' p Hp), (Ve (nth p inds O)); [reflexivity|]. apply Hb, nth_In, Hp.
  - destruct (core_noneF l A ld n P rst HA Hrs r' rs rF_sh rF_val (length inds) t' Vt) as (X & EX & TX).
    useE EX. cbn [rbind]. apply (Fin' X _ (fun m j => fluxF l P rst rs j (aget t (at_time m))) TX). intros p j Hp. rewrite (Vt' p Hp). reflexivity.
Qed.
End M.
