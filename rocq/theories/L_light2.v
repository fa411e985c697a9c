(** * Light curves of arrays *)
From Coq Require Import Reals Lra Lia Psatz List Bool Arith ZArith.
From Coquelicot Require Import Coquelicot.
From Verif Require Import Num CoreOps Inst CoreFlux M_units M_kepler M_tensor M_limbdark Spec_orbit Spec_array Spec_light L_real L_fl L_flux L_tens L_shape L_transit3 L_shapeS L_reshape L_light1.
Import ListNotations.
Local Notation length := List.length.
Open Scope R_scope.

Lemma bc_ones s : bc (repeat 1%nat (length s)) s = Some s.
Proof.
  induction s as [|d s IH]; [reflexivity|]. cbn [length repeat bc]. rewrite IH. destruct (Nat.eqb_spec 1 d) as [<-|H]; reflexivity.
Qed.
Lemma bc_w n K N : bc [1; K; 1]%nat [n; K; N] = Some [n; K; N].
Proof. cbn -[Nat.eqb]. destruct (Nat.eqb_spec 1 N) as [<-|]; rewrite ?(Nat.eqb_refl 1), ?(Nat.eqb_refl K); destruct (Nat.eqb_spec 1 n) as [<-|]; rewrite ?(Nat.eqb_refl K); reflexivity. Qed.
Lemma flat_map2 {A C D} (f : A -> C -> D) x y s l : ash x = Ok s -> ash y = Ok s -> flat (amap2 f x y) l = f (flat x l) (flat y l).
Proof. intros Hx Hy. unfold flat. cbn [ash amap2 aget]. rewrite Hx, Hy. cbn [bcr]. rewrite bc_refl. reflexivity. Qed.
Lemma flat_map1 {A C} (f : A -> C) x l : flat (amap f x) l = f (flat x l).
Proof. unfold flat. cbn [ash amap aget]. destruct (ash x); reflexivity. Qed.
Lemma sh_map2 {A C D} (f : A -> C -> D) x y s : ash x = Ok s -> ash y = Ok s -> ash (amap2 f x y) = Ok s.
Proof. intros Hx Hy. cbn [ash amap2]. rewrite Hx, Hy. cbn [bcr]. rewrite bc_refl. reflexivity. Qed.

(** values per planet *)
Lemma pv_at n a v i : planet_numbers n a v -> (i O < n)%nat -> aget a i = Fin (v (i O)).
Proof. intros [_ V] Hi. apply V. exact Hi. Qed.
Lemma pv_sh n a v s : planet_numbers n a v -> bcr (Ok (n :: s)) (ash a) = Ok (n :: s).
Proof.
  intros [[E|E] _]; rewrite E; cbn [bcr].
  - rewrite bc_nil. reflexivity.
  - rewrite bcS_Nn. reflexivity.
Qed.

Section L.
Variables (u1 u2 : R) (A : orbit_api) (ld : bool) (n : nat) (P : nat -> R -> R * R * R) (rst : nat -> R).
Hypothesis Hd : disk_flux u1 u2 <> 0.
Hypothesis HA : answers A ld n P.
Hypothesis Hrs : planet_numbers n (oa_r_star A) rst.
Hypothesis Hrs0 : forall j, (j < n)%nat -> rst j <> 0.
Let l := ld_init (Fin u1) (Fin u2).
Variables (r : tens) (rs : nat -> R).
Hypothesis Er : ash r = Ok [n].
Hypothesis Vr : forall i, (i O < n)%nat -> aget r i = Fin (rs (i O)).

Definition fluxj (j : nat) (t : R) : R := flux_at u1 u2 (P j t) (rs j) (rst j).

Lemma grid_ok s t ts : ash t = Ok s -> twf t -> (forall i, inside s i -> aget t i = Fin (ts i)) ->
  exists X, grid_flux l A r t ld = Ok X /\ ash X = Ok (n :: s) /\
    forall i, inside (n :: s) i -> aget X i = Fin (fluxj (i O) (ts (fun k => i (S k)))).
Proof.
  intros Es Wt Ht. destruct (HA s t ts Es Wt Ht) as (x & y & z & sh & Ep & Eprod & (Sx & Lx) & (Sy & Ly) & (Sz & Lz)).
  unfold grid_flux. rewrite Ep. cbn [rbind]. cbv zeta.
  match goal with |- context [areshape (ash ?x) _] => set (rg := x) end.
  assert (Erg : ash rg = Ok (n :: s)).
  { unfold rg, apadl, apadr, andim. cbn [nadd nzl NumT amap2 amap ash]. rewrite Er, Es. cbn [rmap bcr]. change ([n] ++ repeat 1%nat (length s)) with (n :: repeat 1%nat (length s)).
    cbn [bc]. rewrite bc_ones. destruct (Nat.eqb_spec n 1) as [->|]; [reflexivity|]. destruct n as [|[|?]]; try reflexivity; lia. }
  rewrite Erg. eexists. split; [reflexivity|].
  match goal with |- context [areshape (Ok (n :: s)) (nsqrt ?x)] => set (b := nsqrt x) end.
  assert (Sb : ash b = Ok sh). { unfold b. cbn [nsqrt nadd NumT npw nmul amap ash]. apply sh_map2; apply sh_map2; assumption. }
  assert (S2 : forall X : tens, ash X = Ok sh -> ash (areshape (Ok (n :: s)) X) = Ok (n :: s)) by (intros X HX; apply (reshape_sh X sh); assumption).
  assert (S3 : forall X : tens, ash X = Ok (n :: s) -> ash (X / oa_r_star A)%num = Ok (n :: s)).
  { intros X HX. cbn [ndiv NumT amap2 ash]. rewrite HX. apply (pv_sh n _ rst). exact Hrs. }
  split.
  - apply flux_sh; apply S3; [apply S2; exact Sb|exact Erg|apply S2; exact Sz].
  - intros i Hi. destruct (inside_cons _ _ _ Hi) as [Hi0 Hi1]. unfold fluxj, flux_at.
    assert (Vs := pv_at n _ rst i Hrs Hi0). assert (V0 := Hrs0 _ Hi0).
    apply flux_elt; [exact Hd| | |]; cbn [ndiv NumT amap2 aget]; rewrite Vs.
    + rewrite (reshape_at b sh _ _ Sb). unfold b. cbn [nsqrt nadd NumT npw nmul]. rewrite flat_map1.
      rewrite (flat_map2 fadd _ _ sh _ (sh_map2 _ _ _ _ Sx Sx) (sh_map2 _ _ _ _ Sy Sy)).
      rewrite (flat_map2 fmul _ _ sh _ Sx Sx), (flat_map2 fmul _ _ sh _ Sy Sy), (Lx i Hi), (Ly i Hi). cbn [fmul fadd].
      set (X := vx _). set (Y := vy _). unfold fsqrt, fdiv. unfold Rltb. destruct (Rlt_dec (X * X + Y * Y) 0); [nra|]. rewrite (Reqb_ne _ _ V0). reflexivity.
    + unfold rg, apadl, apadr. cbn [nadd nzl NumT amap2 amap aget]. rewrite (Vr i Hi0). cbn [fadd fdiv]. rewrite Rplus_0_r, (Reqb_ne _ _ V0). reflexivity.
    + rewrite (reshape_at z sh _ _ Sz), (Lz i Hi). cbn [fdiv]. rewrite (Reqb_ne _ _ V0). reflexivity.
Qed.

Lemma grid_bad lm m s t ts : m <> n -> prod s <> 0%nat -> ash t = Ok s -> twf t -> (forall i, inside s i -> aget t i = Fin (ts i)) ->
  forall r : tens, ash r = Ok [m] -> exists X, grid_flux lm A r t ld = Ok X /\ ash X = Err ShapeErr.
Proof.
  intros Hm Hs Es Wt Ht q Eq. destruct (HA s t ts Es Wt Ht) as (x & y & z & sh & Ep & Eprod & (Sx & Lx) & (Sy & Ly) & (Sz & Lz)).
  unfold grid_flux. rewrite Ep. cbn [rbind]. cbv zeta. match goal with |- context [areshape (ash ?x) _] => set (rg := x) end.
  assert (Erg : ash rg = Ok (m :: s)).
  { unfold rg, apadl, apadr, andim. cbn [nadd nzl NumT amap2 amap ash]. rewrite Eq, Es. cbn [rmap bcr]. change ([m] ++ repeat 1%nat (length s)) with (m :: repeat 1%nat (length s)).
    cbn [bc]. rewrite bc_ones. destruct (Nat.eqb_spec m 1) as [->|]; [reflexivity|]. destruct m as [|[|?]]; try reflexivity; lia. }
  rewrite Erg. eexists. split; [reflexivity|].
  assert (Bad : ash (areshape (Ok (m :: s)) z) = Err ShapeErr).
  { apply (reshape_bad z sh (m :: s) Sz). rewrite Eprod. change (prod (n :: s)) with (n * prod s)%nat. change (prod (m :: s)) with (m * prod s)%nat. intro C. apply Hm. nia. }
  unfold compute_light_curve. cbn [nsw nlt nlit nzl ndiv NumT amap3 amap2 amap alit ash]. rewrite Bad. reflexivity.
Qed.

(** no exposure time *)
Lemma vec_at N t i : is_vector N t -> inside [N] i -> aget t i = aget t (at_time (i O)).
Proof. intros [W E] Hi. apply (W _ E). intros k Hk. destruct k as [|k]; [reflexivity|]. destruct k; cbn in Hk; contradiction. Qed.
Lemma inside_tp n' N m j : (m < N)%nat -> (j < n')%nat -> inside [n'; N] (at_tp m j).
Proof. intros Hm Hj k Hk. destruct k as [|[|k]]; cbn in *; lia. Qed.
Lemma core_none N t ts : is_vector N t -> (forall m, (m < N)%nat -> aget t (at_time m) = Fin (ts m)) ->
  exists X, grid_flux l A r t ld = Ok X /\ light_table n N X (fun m j => fluxj j (ts m)).
Proof.
  intros Ht Hts. destruct (grid_ok [N] t (fun i => ts (i O)) (proj2 Ht) (proj1 Ht)) as (X & E & S & V).
  { intros i Hi. rewrite (vec_at N t i Ht Hi). apply Hts. apply (Hi O). cbn. lia. }
  exists X. split; [exact E|]. split; [exact S|]. intros m j Hm Hj. rewrite V by (apply inside_tp; assumption). reflexivity.
Qed.

(** exposure times *)
Lemma fsum_fin (f : nat -> R) ks : fsum (map (fun k => Fin (f k)) ks) = Fin (fold_right Rplus 0 (map f ks)).
Proof.
  unfold fsum. assert (G : forall a, fold_left fadd (map (fun k => Fin (f k)) ks) (Fin a) = Fin (a + fold_right Rplus 0 (map f ks))).
  { induction ks as [|k ks IH]; intro a; cbn; [f_equal; ring|]. rewrite IH. f_equal. ring. }
  rewrite G, Rplus_0_l. reflexivity.
Qed.
Lemma sum_combine (xs ws : list R) (h : R -> R -> R) : length xs = length ws ->
  fold_right Rplus 0 (map (fun p => h (fst p) (snd p)) (combine xs ws)) = fold_right Rplus 0 (map (fun k => h (nth k xs 0) (nth k ws 0)) (seq 0 (length xs))).
Proof.
  revert ws. induction xs as [|x xs IH]; intros [|w ws] H; cbn in H; try discriminate; [reflexivity|].
  cbn [combine map fold_right length seq nth fst snd]. rewrite <- seq_shift, map_map. rewrite IH by lia. reflexivity.
Qed.
Lemma tgrid_facts N t ts e es (nodes : list R) :
  is_vector N t -> (forall m, (m < N)%nat -> aget t (at_time m) = Fin (ts m)) ->
  (ash e = Ok [] \/ ash e = Ok [1%nat; N]) -> twf e ->
  (forall i, inside [length nodes; N] i -> aget e i = Fin (es (i 1%nat))) ->
  let tg := nadd (apadr t) (nmul e (avec nodes)) in
  ash tg = Ok [length nodes; N] /\ twf tg /\
  forall i, inside [length nodes; N] i -> aget tg i = Fin (ts (i 1%nat) + es (i 1%nat) * nth (i O) nodes 0).
Proof.
  intros Ht Hts Se We He. cbv zeta. set (K := length nodes) in *. set (tg := nadd (apadr t) (nmul e (avec nodes))).
  assert (B1 : forall s : shape, bc (1%nat :: s) [K] = Some (K :: s)) by (intro s; cbn [bc]; rewrite bc_nil; destruct K as [|[|?]]; reflexivity).
  assert (B2 : forall s : shape, bc (1%nat :: s) (K :: s) = Some (K :: s)) by (intro s; cbn [bc]; rewrite bc_refl; destruct K as [|[|?]]; reflexivity).
  assert (St : ash tg = Ok [K; N]).
  { unfold tg, apadr, avec. cbn [nadd nmul NumT amap2 ash]. rewrite (proj2 Ht). fold K. destruct Se as [Se|Se]; rewrite Se; cbn [rmap bcr].
    - change (bc [] [K]) with (Some [K]). cbn [bcr]. rewrite B1. reflexivity.
    - rewrite B1. cbn [bcr]. rewrite B2. reflexivity. }
  assert (Wt : twf tg).
  { intros s Hs i i' Hi. rewrite St in Hs. injection Hs as <-. unfold tg, apadr, avec. cbn [nadd nmul NumT amap2 aget]. fold K. f_equal; [|f_equal].
    - apply (proj1 Ht _ (proj2 Ht)). intros k Hk. apply (Hi (S k)). cbn. destruct k as [|k]; [exact Hk|destruct k; cbn in Hk; contradiction].
    - destruct Se as [Se|Se]; apply (We _ Se); intros k Hk.
      + destruct k; cbn in Hk; contradiction.
      + apply Hi. destruct k as [|[|k]]; cbn in *; try contradiction; try assumption.
    - f_equal. unfold coord. destruct (Nat.eqb_spec K 1); [reflexivity|]. f_equal. apply (Hi O). cbn. assumption. }
  split; [exact St|]. split; [exact Wt|].
  intros i Hi. unfold tg, apadr, avec. cbn [nadd nmul NumT amap2 aget]. fold K. destruct (inside_cons _ _ _ Hi) as [H0 H1].
  rewrite (vec_at N t _ Ht H1), (Hts (i 1%nat) (H1 O ltac:(cbn; lia))), (He i Hi). cbn [fmul fadd].
  unfold coord. destruct (Nat.eqb_spec K 1); [|reflexivity]. replace (i O) with O by lia. reflexivity.
Qed.
Lemma core_exp N t ts e es nodes weights :
  is_vector N t -> (forall m, (m < N)%nat -> aget t (at_time m) = Fin (ts m)) ->
  (ash e = Ok [] \/ ash e = Ok [1%nat; N]) -> twf e ->
  (forall i, inside [length nodes; N] i -> aget e i = Fin (es (i 1%nat))) ->
  length nodes = length weights ->
  exists X, (lc <- grid_flux l A r (nadd (apadr t) (nmul e (avec nodes))) ld ;;
             Ok (asum1 (nmul (apadr (apadl 1 (avec weights))) lc))) = Ok X /\
    light_table n N X (fun m j => node_mean nodes weights (fluxj j) (ts m) (es m)).
Proof.
  intros Ht Hts Se We He HL. set (K := length nodes) in *. set (tg := nadd (apadr t) (nmul e (avec nodes))).
  destruct (tgrid_facts N t ts e es nodes Ht Hts Se We He) as (St & Wt & Vt). fold K in St, Vt. fold tg in St, Wt, Vt.
  destruct (grid_ok [K; N] tg (fun i => ts (i 1%nat) + es (i 1%nat) * nth (i O) nodes 0) St Wt Vt) as (Y & E & S & V).
  rewrite E. cbn [rbind]. eexists. split; [reflexivity|].
  assert (Sw : ash (nmul (apadr (apadl 1 (avec weights))) Y) = Ok [n; K; N]).
  { unfold apadr, apadl, avec. cbn [nmul NumT amap2 ash rmap app repeat]. rewrite S, <- HL. fold K. cbn [bcr app repeat].
    exact (f_equal (fun o => match o with Some c => Ok c | None => Err ShapeErr end) (bc_w n K N)). }
  split.
  - unfold asum1. rewrite Sw. reflexivity.
  - intros m j Hm Hj. unfold asum1. rewrite Sw. cbn [aget at_tp].
    assert (Ek : forall k, (k < K)%nat -> aget (nmul (apadr (apadl 1 (avec weights))) Y) (cons_ix j (cons_ix k (fun q => at_tp m j (Datatypes.S q)))) =
       Fin (nth k weights 0 * fluxj j (ts m + es m * nth k nodes 0))).
    { intros k Hk. unfold apadr, apadl, avec. cbn [nmul NumT amap2 aget]. rewrite <- HL. fold K. rewrite V.
      - cbn [cons_ix at_tp fmul]. unfold coord. destruct (Nat.eqb_spec K 1); [|reflexivity]. replace k with O by lia. reflexivity.
      - apply inside_cons_ix; [exact Hj|]. apply inside_cons_ix; [exact Hk|]. intros q Hq. destruct q as [|q]; cbn in *; [exact Hm|lia]. }
    rewrite (map_ext_in _ (fun k => Fin (nth k weights 0 * fluxj j (ts m + es m * nth k nodes 0)))).
    2:{ intros k Hk. apply in_seq in Hk. apply Ek. lia. }
    rewrite fsum_fin. f_equal. unfold node_mean. rewrite (sum_combine nodes weights (fun x w => w * fluxj j (ts m + es m * x)) HL). reflexivity.
Qed.
End L.
