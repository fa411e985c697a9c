(** * Light curves with rounding errors, element by element *)
From Coq Require Import Reals Lra Lia List Bool Arith ZArith FunctionalExtensionality.
From Verif Require Import Num CoreOps Inst CoreFlux M_units M_kepler M_tensor M_limbdark Spec_orbit Spec_array Spec_light Spec_undef
  L_real L_fl L_flux L_tens L_shape L_transit3 L_shapeS L_reshape L_light1 L_light2 L_light3 Spec_float Spec_float2 Spec_float3 Spec_float5 L_undef.
Import ListNotations.
Local Notation length := List.length.
Open Scope R_scope.

Definition finite (a : fl) : Prop := exists x, a = Fin x.
(** the orbit answers for times that are numbers *)
Definition answersQ (A : orbit_api) (ld : bool) (n : nat) (P : nat -> fl -> fl * fl * fl) : Prop :=
  forall s t, ash t = Ok s -> twf t -> (forall i, inside s i -> finite (aget t i)) ->
  exists x y z sh, oa_pos A t ld = Ok (x, y, z) /\ prod sh = prod (n :: s) /\
    listsF n s t x sh (fun j t => fst (fst (P j t))) /\ listsF n s t y sh (fun j t => snd (fst (P j t))) /\ listsF n s t z sh (fun j t => snd (P j t)).

Section Rd.
Variable rd : rounder.
Variable FO : FluxOp.
Local Instance NF : Num fl bool | 0 := rounded_fl rd.
Local Instance NT : Num tens btens | 0 := rounded_tens rd.
Local Existing Instance FO.
Hypothesis HZ : forall op x y, rd op x y 0 = 0.

Lemma fluxM_sh l (b r los : tens) s : ash b = Ok s -> ash r = Ok s -> ash los = Ok s -> ash (compute_light_curve l b r (Some los)) = Ok s.
Proof.
  intros Hb Hr Hl. unfold compute_light_curve, quad_light_curve. cbn [nsw nlt nlit nzl NT rounded_tens amap3 amap2 amap alit ash].
  rewrite Hb, Hr, Hl. cbn [bcr bc]. rewrite bc_refl. cbn [bcr]. rewrite bc_refl. cbn [bcr]. rewrite bc_refl. reflexivity.
Qed.

Section L.
Variables (l : limbdark) (A : orbit_api) (ld : bool) (n : nat) (P : nat -> fl -> fl * fl * fl) (rst : nat -> fl).
Hypothesis HA : answersQ A ld n P.
Hypothesis Hrs : planetF n (oa_r_star A) rst.
Variables (r : tens) (rs : nat -> fl).
Hypothesis Er : ash r = Ok [n].
Hypothesis Vr : forall i, (i O < n)%nat -> aget r i = rs (i O).

Definition fluxM (j : nat) (t : fl) : fl :=
  if flt (nlit 0) (ndiv (snd (P j t)) (rst j))
  then fquad (ld_c l) (ndiv (nsqrt (nadd (nmul (fst (fst (P j t))) (fst (fst (P j t)))) (nmul (snd (fst (P j t))) (snd (fst (P j t)))))) (rst j))
         (ndiv (nadd (rs j) (Fin 0)) (rst j))
  else Fin 0.

Lemma gridM s t : ash t = Ok s -> twf t -> (forall i, inside s i -> finite (aget t i)) ->
  exists X, grid_flux l A r t ld = Ok X /\ ash X = Ok (n :: s) /\
    forall i, inside (n :: s) i -> aget X i = fluxM (i O) (aget t (fun k => i (S k))).
Proof.
  intros Es Wt Ft. destruct (HA s t Es Wt Ft) as (x & y & z & sh & Ep & Eprod & (Sx & Lx) & (Sy & Ly) & (Sz & Lz)).
  unfold grid_flux. rewrite Ep. cbn [rbind]. cbv zeta.
  match goal with |- context [areshape (ash ?x) _] => set (rg := x) end.
  assert (Erg : ash rg = Ok (n :: s)).
  { unfold rg, apadl, apadr, andim. cbn [nadd nzl NT rounded_tens amap2 amap ash]. rewrite Er, Es. cbn [rmap bcr]. change ([n] ++ repeat 1%nat (length s)) with (n :: repeat 1%nat (length s)).
    cbn [bc]. rewrite bc_ones. destruct (Nat.eqb_spec n 1) as [->|]; [reflexivity|]. destruct n as [|[|?]]; try reflexivity; lia. }
  rewrite Erg. eexists. split; [reflexivity|].
  match goal with |- context [areshape (Ok (n :: s)) (nsqrt ?x)] => set (b := nsqrt x) end.
  assert (Sb : ash b = Ok sh). { unfold b. cbn [nsqrt nadd NT rounded_tens npw nmul amap ash]. apply sh_map2; apply sh_map2; assumption. }
  assert (S2 : forall X : tens, ash X = Ok sh -> ash (areshape (Ok (n :: s)) X) = Ok (n :: s)) by (intros X HX; apply (reshape_sh X sh); assumption).
  assert (S3 : forall X : tens, ash X = Ok (n :: s) -> ash (X / oa_r_star A)%num = Ok (n :: s)).
  { intros X HX. cbn [ndiv NT rounded_tens amap2 ash]. rewrite HX. destruct Hrs as [[E|E] _]; rewrite E; cbn [bcr]; [rewrite bc_nil|rewrite bcS_Nn]; reflexivity. }
  split.
  - apply fluxM_sh; apply S3; [apply S2; exact Sb|exact Erg|apply S2; exact Sz].
  - intros i Hi. destruct (inside_cons _ _ _ Hi) as [Hi0 Hi1].
    assert (Vs := proj2 Hrs i Hi0).
    assert (Eb : flat b (lin (n :: s) i) = nsqrt (nadd (nmul (fst (fst (P (i O) (aget t (fun k => i (S k)))))) (fst (fst (P (i O) (aget t (fun k => i (S k)))))))
       (nmul (snd (fst (P (i O) (aget t (fun k => i (S k)))))) (snd (fst (P (i O) (aget t (fun k => i (S k))))))))).
    { unfold b. cbn [nsqrt nadd NT rounded_tens npw nmul]. rewrite flat_map1.
      rewrite (flat_map2 nadd _ _ sh _ (sh_map2 _ _ _ _ Sx Sx) (sh_map2 _ _ _ _ Sy Sy)).
      rewrite (flat_map2 nmul _ _ sh _ Sx Sx), (flat_map2 nmul _ _ sh _ Sy Sy), (Lx i Hi), (Ly i Hi). reflexivity. }
    unfold compute_light_curve, quad_light_curve, fluxM. cbn [nsw nlt nlit nzl ndiv NT rounded_tens amap3 amap2 amap alit aget].
    rewrite Vs, (reshape_at b sh _ _ Sb), (reshape_at z sh _ _ Sz), (Lz i Hi), Eb.
    unfold rg, apadl, apadr. cbn [nadd nzl NT rounded_tens amap2 amap aget]. rewrite (Vr i Hi0). reflexivity.
Qed.

Lemma core_noneM N t : is_vector N t -> (forall m, (m < N)%nat -> finite (aget t (at_time m))) ->
  exists X, grid_flux l A r t ld = Ok X /\ tableF n N X (fun m j => fluxM j (aget t (at_time m))).
Proof.
  intros Ht Ft. destruct (gridM [N] t (proj2 Ht) (proj1 Ht)) as (X & E & S & V).
  { intros i Hi. rewrite (vec_at N t i Ht Hi). apply Ft. apply (Hi O). cbn. lia. }
  exists X. split; [exact E|]. split; [exact S|]. intros m j Hm Hj. rewrite V by (apply inside_tp; assumption). reflexivity.
Qed.

Lemma tgridM N t e (eF : nat -> fl) (nodes : list R) :
  is_vector N t -> (ash e = Ok [] \/ ash e = Ok [1%nat; N]) -> twf e ->
  (forall i, inside [length nodes; N] i -> aget e i = eF (i 1%nat)) ->
  let tg := nadd (apadr t) (nmul e (avec nodes)) in
  ash tg = Ok [length nodes; N] /\ twf tg /\
  forall i, inside [length nodes; N] i -> aget tg i = nadd (aget t (at_time (i 1%nat))) (nmul (eF (i 1%nat)) (nlit (nth (i O) nodes 0))).
Proof.
  intros Ht Se We He. cbv zeta. set (K := length nodes) in *. set (tg := nadd (apadr t) (nmul e (avec nodes))).
  assert (B1 : forall s : shape, bc (1%nat :: s) [K] = Some (K :: s)) by (intro s; cbn [bc]; rewrite bc_nil; destruct K as [|[|?]]; reflexivity).
  assert (B2 : forall s : shape, bc (1%nat :: s) (K :: s) = Some (K :: s)) by (intro s; cbn [bc]; rewrite bc_refl; destruct K as [|[|?]]; reflexivity).
  assert (St : ash tg = Ok [K; N]).
  { unfold tg, apadr, avec. cbn [nadd nmul NT rounded_tens amap2 ash]. rewrite (proj2 Ht). fold K. destruct Se as [Se|Se]; rewrite Se; cbn [rmap bcr].
    - change (bc [] [K]) with (Some [K]). cbn [bcr]. rewrite B1. reflexivity.
    - rewrite B1. cbn [bcr]. rewrite B2. reflexivity. }
  assert (Wt : twf tg).
  { intros s Hs i i' Hi. rewrite St in Hs. injection Hs as <-. unfold tg, apadr, avec. cbn [nadd nmul NT rounded_tens amap2 aget]. fold K. f_equal; [|f_equal].
    - apply (proj1 Ht _ (proj2 Ht)). intros k Hk. apply (Hi (S k)). cbn. destruct k as [|k]; [exact Hk|destruct k; cbn in Hk; contradiction].
    - destruct Se as [Se|Se]; apply (We _ Se); intros k Hk.
      + destruct k; cbn in Hk; contradiction.
      + apply Hi. destruct k as [|[|k]]; cbn in *; try contradiction; try assumption.
    - f_equal. unfold coord. destruct (Nat.eqb_spec K 1); [reflexivity|]. f_equal. apply (Hi O). cbn. assumption. }
  split; [exact St|]. split; [exact Wt|].
  intros i Hi. unfold tg, apadr, avec. cbn [nadd nmul NT rounded_tens amap2 aget]. fold K. destruct (inside_cons _ _ _ Hi) as [H0 H1].
  rewrite (vec_at N t _ Ht H1), (He i Hi).
  unfold coord. destruct (Nat.eqb_spec K 1); [|reflexivity]. replace (i O) with O by lia. reflexivity.
Qed.

Definition meanM (nodes weights : list R) (j : nat) (t e : fl) : fl :=
  fsum (map (fun k => nmul (nlit (nth k weights 0)) (fluxM j (nadd t (nmul e (nlit (nth k nodes 0)))))) (seq 0 (length nodes))).

Lemma core_expM N t e eF nodes weights :
  is_vector N t -> (forall m, (m < N)%nat -> finite (aget t (at_time m))) -> (forall m, (m < N)%nat -> finite (eF m)) -> (ash e = Ok [] \/ ash e = Ok [1%nat; N]) -> twf e ->
  (forall i, inside [length nodes; N] i -> aget e i = eF (i 1%nat)) ->
  length nodes = length weights ->
  exists X, (lc <- grid_flux l A r (nadd (apadr t) (nmul e (avec nodes))) ld ;;
             Ok (asum1 (nmul (apadr (apadl 1 (avec weights))) lc))) = Ok X /\
    tableF n N X (fun m j => meanM nodes weights j (aget t (at_time m)) (eF m)).
Proof.
  intros Ht Ft Fe Se We He HL. set (K := length nodes) in *. set (tg := nadd (apadr t) (nmul e (avec nodes))).
  destruct (tgridM N t e eF nodes Ht Se We He) as (St & Wt & Vt). fold K in St, Vt. fold tg in St, Wt, Vt.
  destruct (gridM [K; N] tg St Wt) as (Y & E & S & V).
  { intros i Hi. rewrite (Vt i Hi). destruct (inside_cons _ _ _ Hi) as [_ Hi1]. assert (H1 := Hi1 O ltac:(cbn; lia)). cbn in H1. destruct (Ft _ H1) as [a ->]. destruct (Fe _ H1) as [b ->]. eexists. reflexivity. }
  rewrite E. cbn [rbind]. eexists. split; [reflexivity|].
  assert (Sw : ash (nmul (apadr (apadl 1 (avec weights))) Y) = Ok [n; K; N]).
  { unfold apadr, apadl, avec. cbn [nmul NT rounded_tens amap2 ash rmap app repeat]. rewrite S, <- HL. fold K. cbn [bcr app repeat].
    exact (f_equal (fun o => match o with Some c => Ok c | None => Err ShapeErr end) (bc_w n K N)). }
  split.
  - unfold asum1. rewrite Sw. reflexivity.
  - intros m j Hm Hj. unfold asum1. rewrite Sw. cbn [aget at_tp]. unfold meanM. fold K. f_equal. apply map_ext_in.
    intros k Hk. apply in_seq in Hk. destruct Hk as [_ Hk]. cbn in Hk.
    unfold apadr, apadl, avec. cbn [nmul NT rounded_tens amap2 aget]. rewrite <- HL. fold K.
    assert (HI : inside [K; N] (cons_ix k (fun q => at_tp m j (Datatypes.S q)))) by (apply inside_cons_ix; [exact Hk|]; intros q Hq; destruct q as [|q]; cbn in *; [exact Hm|lia]).
    rewrite V.
    + cbn [cons_ix at_tp]. f_equal.
      * unfold coord. destruct (Nat.eqb_spec K 1); [|reflexivity]. replace k with O by lia. reflexivity.
      * f_equal. etransitivity; [apply (Vt _ HI)|]. reflexivity.
    + apply inside_cons_ix; [exact Hj|]. exact HI.
Qed.
End L.

Section M.
Variables (l : limbdark) (A : orbit_api) (ld : bool) (n : nat) (P : nat -> fl -> fl * fl * fl) (rst : nat -> fl).
Hypothesis HA : answersQ A ld n P.
Hypothesis Hrs : planetF n (oa_r_star A) rst.
Variables (r : tens) (sr : shape).
Hypothesis Sr : ash r = Ok sr.
Hypothesis Pr : prod sr = n.
Let rs j := flat r j.
Let r' := areshape (rmap (fun s => [prod s]) (ash r)) r.
Lemma rM_sh : ash r' = Ok [n].
Proof. unfold r'. rewrite Sr. cbn [rmap]. refine (eq_trans (reshape_sh r sr [prod sr] Sr _) _); [cbn; lia|]. rewrite Pr. reflexivity. Qed.
Lemma rM_val : forall i, (i O < n)%nat -> aget r' i = rs (i O).
Proof.
  intros i Hi. unfold r'. rewrite Sr. cbn [rmap]. refine (eq_trans (reshape_at r sr [prod sr] i Sr) _). rewrite Pr.
  replace (lin [n] i) with (i O); [reflexivity|]. cbn. destruct (Nat.eqb_spec n 1); lia.
Qed.
Lemma rM_sn : Sn n r'.
Proof.
  right. split; [exact rM_sh|]. intros i i' E. unfold r'. rewrite Sr. cbn [rmap]. rewrite !(reshape_at r sr [prod sr] _ Sr). cbn [lin]. rewrite E. reflexivity.
Qed.

(** one entry *)
Definition rowM (texp : option tens) (nodes weights : list R) (j : nat) (t e : fl) : fl :=
  match texp with None => fluxM l P rst rs j t | Some _ => meanM l P rst rs nodes weights j t e end.
Variables (N : nat) (t : tens) (texp : option tens) (ev : nat -> fl) (osam order : Z) (nodes weights : list R).
Hypothesis Ht : is_vector N t.
Hypothesis Ft : forall m, (m < N)%nat -> finite (aget t (at_time m)).
Hypothesis Fe : forall m, (m < N)%nat -> finite (ev m).
Hypothesis He : exposure_values N texp ev.
Hypothesis St : stencil osam order = Ok (nodes, weights).

Lemma plainM : exists X, get_light_curve_checked l A r t texp osam order false ld = Ok X /\
  tableF n N X (fun m j => rowM texp nodes weights j (aget t (at_time m)) (ev m)).
Proof.
  unfold get_light_curve_checked, rowM. cbv zeta. fold r'. cbn [rbind]. destruct texp as [e|].
  - destruct He as [We Ee]. rewrite St. cbn [rbind]. assert (HL := stencil_len _ _ _ _ St).
    assert (An : andim t = 1%nat) by (unfold andim; rewrite (proj2 Ht); reflexivity). rewrite An. destruct Ee as [[Se Ve]|[Se Ve]].
    + assert (E0 : andim e = O) by (unfold andim; rewrite Se; reflexivity). rewrite E0. cbn [Nat.eqb rbind].
      destruct (core_expM l A ld n P rst HA Hrs r' rs rM_sh rM_val N t e ev nodes weights Ht Ft Fe (or_introl Se) We) as (X & EX & TX); [|exact HL|].
      { intros i Hi. rewrite (We _ Se i ix0); [symmetry; apply Ve|]. intros k Hk. destruct k; cbn in Hk; contradiction. }
      useE EX. cbn [rbind]. rewrite (proj1 TX). cbn [rbind]. exists X. split; [reflexivity|exact TX].
    + assert (E0 : andim e = 1%nat) by (unfold andim; rewrite Se; reflexivity). rewrite E0. cbn [Nat.eqb rbind].
      destruct (core_expM l A ld n P rst HA Hrs r' rs rM_sh rM_val N t (apadr e) ev nodes weights Ht Ft Fe) as (X & EX & TX); [| | |exact HL|].
      { right. unfold apadr. cbn [ash]. rewrite Se. reflexivity. }
      { intros s Hs i i' Hi. unfold apadr in Hs |- *. cbn [ash aget] in *. rewrite Se in Hs. cbn in Hs. injection Hs as <-. apply (We _ Se).
        intros k Hk. apply (Hi (S k)). exact Hk. }
      { intros i Hi. unfold apadr. cbn [aget]. assert (H1 := Hi 1%nat ltac:(cbn; lia)). cbn in H1. rewrite (We _ Se _ (at_time (i 1%nat))); [symmetry; apply Ve; exact H1|].
        intros k Hk. destruct k as [|k]; [reflexivity|destruct k; cbn in Hk; contradiction]. }
      useE EX. cbn [rbind]. rewrite (proj1 TX). cbn [rbind]. exists X. split; [reflexivity|exact TX].
  - destruct (core_noneM l A ld n P rst HA Hrs r' rs rM_sh rM_val N t Ht Ft) as (X & EX & TX).
    cbn [rbind]. useE EX. cbn [rbind]. rewrite (proj1 TX). cbn [rbind]. exists X. split; [reflexivity|exact TX].
Qed.

(** with a mask and at most one exposure time *)
Hypothesis H1 : single texp.
Variable inds : list nat.
Hypothesis Hi : oa_in_transit A t r' texp ld = Ok inds.
Hypothesis Hb : forall m, In m inds -> (m < N)%nat.
Lemma gatherM : exists y, agather t inds = Ok y /\ is_vector (length inds) y /\ (forall q, (q < length inds)%nat -> aget y (at_time q) = aget t (at_time (nth q inds O))).
Proof.
  destruct Ht as [W E]. unfold agather. rewrite E. cbn [last length removelast app Nat.sub]. rewrite (inds_ok N inds Hb). eexists. split; [reflexivity|]. split; [split; [|reflexivity]|].
  - intros s Hs i i' Hi'. cbn [ash aget] in *. injection Hs as <-. apply (W _ E). intros k Hk. unfold set_ix. destruct k as [|k]; [|destruct k; cbn in Hk; contradiction].
    cbn [Nat.eqb]. f_equal. unfold coord. destruct (Nat.eqb_spec (length inds) 1); [reflexivity|]. apply Hi'. cbn. assumption.
  - intros q Hq. cbn [aget]. apply (W _ E).
    intros k Hk. destruct k as [|k]; [|destruct k; cbn in Hk; contradiction]. unfold set_ix, coord. cbn [Nat.eqb at_time].
    destruct (Nat.eqb_spec (length inds) 1); [|reflexivity]. f_equal. lia.
Qed.
Lemma modelM_sh : ash (nadd (apadl 1 (nzl r')) (apadr (nzl t)) : tens) = Ok [n; N].
Proof.
  unfold apadl, apadr. cbn [nadd nzl NT rounded_tens amap2 amap ash]. rewrite rM_sh, (proj2 Ht). cbn [rmap bcr app repeat]. refine (f_equal (fun o => match o with Some c => Ok c | None => Err ShapeErr end) (bc_m n N)).
Qed.
Lemma setM (lc : tens) f : tableF n (length inds) lc f ->
  let out := aset_rows (nadd (apadl 1 (nzl r')) (apadr (nzl t))) inds lc in
  ash out = Ok [n; N] /\ forall m j, (m < N)%nat -> (j < n)%nat ->
    (In m inds -> exists p, (p < length inds)%nat /\ nth p inds O = m /\ aget out (at_tp m j) = f p j) /\
    (~ In m inds -> aget out (at_tp m j) = Fin 0).
Proof.
  intros [Sl Vl]. cbv zeta. unfold aset_rows. rewrite modelM_sh, Sl. cbn [last length removelast app Nat.sub]. rewrite (inds_ok N inds Hb). cbn [ash aget].
  destruct (list_eq_dec Nat.eq_dec [n; length inds] [n; length inds]) as [_|C]; [|contradiction]. split; [reflexivity|].
  intros m j Hm Hj. assert (Em : coord N (at_tp m j 1%nat) = m) by (unfold coord, at_tp; destruct (Nat.eqb_spec N 1); lia). rewrite Em. split; intro H.
  - destruct (pos_in m inds) as [p|] eqn:E; [|apply pos_in_none in E; contradiction]. destruct (pos_in_some _ _ _ E) as [Hp1 Hp2]. exists p. split; [exact Hp1|]. split; [exact Hp2|].
    replace (set_ix 1 p (at_tp m j)) with (at_tp p j); [apply Vl; assumption|]. apply functional_extensionality. intros [|[|k]]; reflexivity.
  - apply pos_in_none in H. rewrite H. unfold apadl, apadr. cbn [nadd nzl NT rounded_tens amap2 amap aget NF rounded_fl rnd fadd value]. f_equal. rewrite Rplus_0_l. apply HZ.
Qed.
Lemma maskedM : exists X, get_light_curve_checked l A r t texp osam order true ld = Ok X /\ ash X = Ok [n; N] /\
  forall m j, (m < N)%nat -> (j < n)%nat ->
    (In m inds -> aget X (at_tp m j) = rowM texp nodes weights j (aget t (at_time m)) (ev m)) /\ (~ In m inds -> aget X (at_tp m j) = Fin 0).
Proof.
  unfold get_light_curve_checked, rowM. cbv zeta. fold r'. rewrite Hi. cbn [rmap rbind].
  assert (An : andim t = 1%nat) by (unfold andim; rewrite (proj2 Ht); reflexivity). rewrite An.
  destruct gatherM as (t' & Et & Vt & Vt'). rewrite Et. cbn [rbind].
  assert (Ft' : forall m, (m < length inds)%nat -> finite (aget t' (at_time m))) by (intros m Hm; rewrite (Vt' m Hm); apply Ft, Hb, nth_In, Hm).
  assert (Fin' : forall lc f g, tableF n (length inds) lc f -> (forall p j, (p < length inds)%nat -> f p j = g (nth p inds O) j) ->
     exists X, (_ <- ash (aset_rows (nadd (apadl 1 (nzl r')) (apadr (nzl t))) inds lc) ;; Ok (aset_rows (nadd (apadl 1 (nzl r')) (apadr (nzl t))) inds lc)) = Ok X /\ ash X = Ok [n; N] /\
     forall m j, (m < N)%nat -> (j < n)%nat -> (In m inds -> aget X (at_tp m j) = g m j) /\ (~ In m inds -> aget X (at_tp m j) = Fin 0)).
  { intros lc f g T E. destruct (setM lc f T) as [S V]. rewrite S. cbn [rbind]. eexists. split; [reflexivity|]. split; [exact S|].
    intros m j Hm Hj. destruct (V m j Hm Hj) as [V1 V2]. split; [|exact V2]. intro HI. destruct (V1 HI) as (p & Hp & <- & Ep). rewrite Ep, (E p j Hp). reflexivity. }
  destruct texp as [e|].
  - destruct He as [We Ee]. rewrite St. cbn [rbind]. assert (HL := stencil_len _ _ _ _ St). assert (Se := H1 e eq_refl).
    assert (Ve : forall m, (m < N)%nat -> ev m = aget e ix0).
    { destruct Ee as [[_ Ve]|[C _]]; [intros; apply Ve|]. rewrite Se in C. discriminate C. }
    assert (E0 : andim e = O) by (unfold andim; rewrite Se; reflexivity). rewrite E0. cbn [Nat.eqb rbind].
    assert (Fe' : forall m, (m < length inds)%nat -> finite (aget e ix0)) by (intros m Hm; rewrite <- (Ve (nth m inds O)) by (apply Hb, nth_In, Hm); apply Fe, Hb, nth_In, Hm).
    destruct (core_expM l A ld n P rst HA Hrs r' rs rM_sh rM_val (length inds) t' e (fun _ => aget e ix0) nodes weights Vt Ft' Fe' (or_introl Se) We) as (X & EX & TX); [|exact HL|].
    { intros i Hi'. apply (We _ Se i ix0). intros k Hk. destruct k; cbn in Hk; contradiction. }
    useE EX. cbn [rbind]. apply (Fin' X _ (fun m j => meanM l P rst rs nodes weights j (aget t (at_time m)) (ev m)) TX).
    intros p j Hp. rewrite (Vt' p Hp), (Ve (nth p inds O)); [reflexivity|]. apply Hb, nth_In, Hp.
  - destruct (core_noneM l A ld n P rst HA Hrs r' rs rM_sh rM_val (length inds) t' Vt Ft') as (X & EX & TX).
    useE EX. cbn [rbind]. apply (Fin' X _ (fun m j => fluxM l P rst rs j (aget t (at_time m))) TX). intros p j Hp. rewrite (Vt' p Hp). reflexivity.
Qed.
End M.
End Rd.
