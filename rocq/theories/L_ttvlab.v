(** * Any labels of transits (C34) *)
From Coq Require Import Reals List Bool Arith ZArith Lra Lia String FinFun.
From Verif Require Import Num CoreOps Inst M_units M_kepler M_kwargs M_fin M_tensor M_ttv Spec_orbit Spec_params Spec_array Spec_ttv
  L_real L_params3 L_ttv1 L_ttv2 L_ttv3 L_ttv4 L_ttv6 Ex_orbit Ex_system.
Import ListNotations.
Local Notation length := List.length.

Lemma pyix_ok n z i : pyix n z = Ok i -> (- Z.of_nat n <= z < Z.of_nat n)%Z /\ (i < n)%nat /\ (z mod Z.of_nat n = Z.of_nat i)%Z.
Proof.
  unfold pyix. intro H. destruct (Z.leb_spec 0 z) as [H0|H0]; cbn [andb] in H.
  - destruct (Z.ltb_spec z (Z.of_nat n)) as [H1|H1].
    + apply Ok_inj in H. subst i. split; [lia|]. split; [lia|]. rewrite Z2Nat.id by lia. apply Z.mod_small. lia.
    + destruct (Z.ltb_spec z 0); [lia|]. rewrite andb_false_r in H. discriminate H.
  - destruct (Z.leb_spec (- Z.of_nat n) z) as [H1|H1]; cbn [andb] in H; [|discriminate H]. destruct (Z.ltb_spec z 0); [|lia].
    apply Ok_inj in H. subst i. split; [lia|]. split; [lia|]. rewrite Z2Nat.id by lia. symmetry. apply (Z.mod_unique _ _ (-1)); lia.
Qed.
Lemma set_all_any {A} (ps : list (Z * A)) : forall l r, set_all l ps = Ok r ->
  length r = length l /\ (forall p, In p ps -> (- Z.of_nat (length l) <= fst p < Z.of_nat (length l))%Z) /\
  (forall i, (forall p, In p ps -> (fst p mod Z.of_nat (length l) <> Z.of_nat i)%Z) -> nth_error r i = nth_error l i) /\
  (forall ps1 z v ps2 i, ps = ps1 ++ (z, v) :: ps2 -> (z mod Z.of_nat (length l) = Z.of_nat i)%Z ->
     (forall p, In p ps2 -> (fst p mod Z.of_nat (length l) <> Z.of_nat i)%Z) -> nth_error r i = Some v).
Proof.
  induction ps as [|[z v] ps IH]; intros l r H.
  - apply Ok_inj in H. subst r. split; [reflexivity|]. split; [intros p []|]. split; [reflexivity|]. intros [|] ? ? ? ? E; discriminate E.
  - cbn [set_all] in H. destruct (pyix (length l) z) as [i0|] eqn:E; [|discriminate H]. cbn [rbind] in H. destruct (pyix_ok _ _ _ E) as (B1 & B2 & B3).
    destruct (IH _ _ H) as (L & R & Q1 & Q2). rewrite set_nth_len in *. split; [exact L|]. split; [|split].
    + intros p [<-|Hp]; [exact B1|apply R, Hp].
    + intros i Hi. rewrite Q1 by (intros p Hp; apply Hi; right; exact Hp). apply set_nth_other. intros ->. apply (Hi (z, v) (or_introl eq_refl)). exact B3.
    + intros [|q ps1] z' v' ps2 i Eq Hz Hl.
      * cbn in Eq. injection Eq as <- <- <-. rewrite Q1 by exact Hl. assert (i = i0) as -> by lia. apply set_nth_same. exact B2.
      * cbn in Eq. injection Eq as <- Eq. apply (Q2 ps1 z' v' ps2 i Eq Hz Hl).
Qed.
Lemma combine_split {A C} (a : list A) (b : list C) : length a = length b -> forall e x y, nth_error a e = Some x -> nth_error b e = Some y ->
  combine a b = combine (firstn e a) (firstn e b) ++ (x, y) :: combine (skipn (S e) a) (skipn (S e) b).
Proof.
  intro L. intro e. revert a b L. induction e as [|e IH]; intros [|a0 a] [|b0 b] L x y H1 H2; try discriminate; cbn in *.
  - congruence.
  - f_equal. apply IH; try assumption. lia.
Qed.
Lemma in_skip {A} (l : list A) n x : In x (skipn n l) -> exists e, (n <= e)%nat /\ nth_error l e = Some x.
Proof.
  revert l. induction n as [|n IH]; intros l H.
  - apply In_nth_error in H. destruct H as (e & H). exists e. split; [lia|exact H].
  - destruct l as [|y l]; [destruct H|]. destruct (IH l H) as (e & E1 & E2). exists (S e). split; [lia|exact E2].
Qed.
Lemma ttv_any_labels : forall k x o, ttv_init k x = Ok o -> forall i inds times,
  nth_error (tt_inds o) i = Some inds -> nth_error (tt_times o) i = Some times -> length inds = length times ->
  exists t0 p m all, tix (o_t0 (tt_orbit o)) i = Ok t0 /\ tix (o_period (tt_orbit o)) i = Ok p /\
    nth_error (tt_all o) i = Some all /\ In m inds /\ (0 <= m)%Z /\ (forall z, In z inds -> (- (m + 1) <= z <= m)%Z) /\ length all = S (Z.to_nat m) /\
    (forall e z v, nth_error inds e = Some z -> nth_error times e = Some v ->
       (forall e' z', (e < e')%nat -> nth_error inds e' = Some z' -> (z' mod (m + 1) <> z mod (m + 1))%Z) ->
       nth_error all (Z.to_nat (z mod (m + 1))) = Some v) /\
    (forall q, (0 <= q <= m)%Z -> (forall z, In z inds -> (z mod (m + 1) <> q)%Z) -> nth_error all (Z.to_nat q) = Some (fadd t0 (fmul p (Fin (IZR q))))).
Proof.
  intros k x o H i inds times Hi Ht HL. destruct (ttv_init_finish k x o H) as (F & _).
  destruct (finish_ok _ _ _ _ _ _ F) as (_ & _ & _ & _ & _ & _ & _ & A).
  destruct (A i inds Hi) as (t0 & p & tt & all & bin & E1 & E2 & E3 & E4 & E5 & _). rewrite Ht in E3. injection E3 as <-.
  unfold ttv_all in E4. destruct (zmax inds) as [m|] eqn:Em; [|discriminate E4]. cbn [rbind] in E4. rewrite set_sub_len in E4 by exact HL.
  destruct (zmax_ok inds m Em) as [Im Hmax]. apply set_all_any in E4. set (e := map _ (zarange (m + 1))) in E4.
  assert (Le : length e = Z.to_nat (m + 1)) by (unfold e, zarange; rewrite !map_length, seq_length; reflexivity). destruct E4 as (L & R & Q1 & Q2).
  assert (M0 : (0 <= m)%Z).
  { destruct (In_nth_error inds m Im) as (e0 & N0). assert (Ht0 : exists v, nth_error times e0 = Some v).
    { destruct (nth_error times e0) as [v|] eqn:Ev; [exists v; reflexivity|]. apply nth_error_None in Ev. assert (nth_error inds e0 <> None) by congruence. apply nth_error_Some in H0. lia. }
    destruct Ht0 as (v & N1). assert (Q := R (m, v) (in_combine_nth _ _ _ _ _ N0 N1)). cbn in Q. rewrite Le in Q. lia. }
  assert (Lz : Z.of_nat (length e) = (m + 1)%Z) by (rewrite Le; lia). rewrite Lz in R, Q1, Q2.
  exists t0, p, m, all. split; [exact E1|]. split; [exact E2|]. split; [exact E5|]. split; [exact Im|]. split; [exact M0|]. split; [|split; [|split]].
  - intros z Hz. assert (Hz' := Hmax z Hz). split; [|exact Hz']. destruct (In_nth_error inds z Hz) as (e0 & N0). assert (Ht0 : exists v, nth_error times e0 = Some v).
    { destruct (nth_error times e0) as [v|] eqn:Ev; [exists v; reflexivity|]. apply nth_error_None in Ev. assert (nth_error inds e0 <> None) by congruence. apply nth_error_Some in H0. lia. }
    destruct Ht0 as (v & N1). apply (R (z, v) (in_combine_nth _ _ _ _ _ N0 N1)).
  - rewrite L, Le. lia.
  - intros e0 z v N0 N1 Hl. assert (Bz := Z.mod_pos_bound z (m + 1) ltac:(lia)).
    apply (Q2 _ z v _ _ (combine_split inds times HL e0 z v N0 N1)); [rewrite Z2Nat.id by lia; reflexivity|].
    intros [z' v'] Hp. cbn. apply in_combine_l in Hp. apply in_skip in Hp. destruct Hp as (e' & Ge & Ne). rewrite Z2Nat.id by lia. apply (Hl e' z'); [lia|exact Ne].
  - intros q Hq Hn. rewrite Q1.
    + unfold e, zarange. rewrite map_map, nth_error_map.
      assert (E' : nth_error (seq 0 (Z.to_nat (m + 1))) (Z.to_nat q) = Some (Z.to_nat q)).
      { rewrite (nth_error_nth' _ 0%nat) by (rewrite seq_length; lia). rewrite seq_nth by lia. reflexivity. }
      rewrite E'. cbn. rewrite Z2Nat.id by lia. reflexivity.
    + intros [z v] Hp. cbn. rewrite Z2Nat.id by lia. apply Hn. apply in_combine_l in Hp. exact Hp.
Qed.
(** a transit numbered -1: its time is lost *)
Definition ex_neg : targs := targs_of None (Some [[Fin 0; Fin 3; Fin 7]]) (Some [[-1; 0; 1]%Z]) (ex_kw 1 ex_bs).
Lemma negative_label : exists k x o, consts_ok k /\ ttv_init k x = Ok o /\
  tt_inds o = [[-1; 0; 1]%Z] /\ tt_times o = [[Fin 0; Fin 3; Fin 7]] /\ tt_all o = [[Fin 3; Fin 7]].
Proof.
  exists ek, ex_neg. destruct (ttv_init ek ex_neg) as [o|] eqn:E; [|discriminate E]. exists o. split; [apply ek_ok|]. split; [reflexivity|].
  destruct (times_init _ _ _ _ E eq_refl eq_refl) as (T1 & _ & T3 & _ & G). destruct (G 0%nat _ eq_refl) as (i0 & s & c & r & G1 & G2 & _). injection G1 as <-.
  assert (T4 : tt_inds o = [[-1; 0; 1]%Z]) by (destruct (tt_inds o) as [|y [|]]; cbn in *; try discriminate; congruence). split; [exact T4|]. split; [exact T1|].
  destruct (ttv_any_labels _ _ _ E 0%nat _ _ ltac:(rewrite T4; reflexivity) ltac:(rewrite T1; reflexivity) eq_refl) as (t0 & p & m & all & _ & _ & A1 & A2 & A3 & A4 & A5 & A6 & _).
  assert (m = 1%Z) as -> by (cbn in A2; assert (Q := A4 1%Z ltac:(cbn; auto)); lia).
  assert (V0 := A6 1%nat 0%Z (Fin 3) eq_refl eq_refl). assert (V1 := A6 2%nat 1%Z (Fin 7) eq_refl eq_refl). cbn in V0, V1, A5.
  assert (W1 : nth_error all 1 = Some (Fin 7)) by (apply V1; intros [|[|[|[|e']]]] z' He Hn; try lia; try discriminate Hn).
  assert (W0 : nth_error all 0 = Some (Fin 3)) by (apply V0; intros [|[|[|[|e']]]] z' He Hn; try lia; try discriminate Hn; injection Hn as <-; discriminate).
  destruct (ttv_init_finish _ _ _ E) as (F & _). destruct (finish_ok _ _ _ _ _ _ F) as (_ & _ & _ & _ & _ & L & _). rewrite T4 in L.
  assert (Ea : all = [Fin 3; Fin 7]). { destruct all as [|a1 [|a2 [|]]]; try discriminate A5. cbn in W0, W1. congruence. }
  rewrite Ea in A1. destruct (tt_all o) as [|y [|]]; cbn in *; try discriminate; congruence.
Qed.

(** ** A planet without transits (C37) *)
Lemma rlist_err {A} (l : list (res A)) e : (forall x, In x l -> (exists a, x = Ok a) \/ x = Err e) -> In (Err e) l -> rlist l = Err e.
Proof.
  induction l as [|x l IH]; intros H Hi; [destruct Hi|]. cbn. destruct (H x (or_introl eq_refl)) as [[a ->]| ->]; [|reflexivity].
  destruct Hi as [Hi|Hi]; [discriminate Hi|]. cbn [rbind]. rewrite IH; [reflexivity|intros y Hy; apply H; right; exact Hy|exact Hi].
Qed.
Lemma imap_err {A C} (f : nat -> A -> res C) l e : (forall i a, nth_error l i = Some a -> (exists c, f i a = Ok c) \/ f i a = Err e) ->
  (exists i a, nth_error l i = Some a /\ f i a = Err e) -> imap f l = Err e.
Proof.
  intros H (i & a & Hi & He). unfold imap. apply rlist_err.
  - intros x Hx. apply in_map_iff in Hx. destruct Hx as ((j, b) & <- & Hb). apply In_nth_error in Hb. destruct Hb as (n & Hn).
    rewrite combine_nth_error in Hn. destruct (nth_error l n) as [c|] eqn:E; [|discriminate Hn]. cbn in Hn. injection Hn as <- <-. apply (H n c E).
  - apply in_map_iff. exists (i, a). split; [exact He|]. apply (nth_error_In _ i). rewrite combine_nth_error, Hi. reflexivity.
Qed.
Lemma imap_total {A C} (f : nat -> A -> res C) l : (forall i a, nth_error l i = Some a -> exists c, f i a = Ok c) -> exists r, imap f l = Ok r.
Proof.
  intro H. unfold imap. set (g := fun p : nat * A => f (fst p) (snd p)).
  assert (W : forall p, In p (combine (seq 0 (length l)) l) -> exists c, g p = Ok c).
  { intros p Hp. apply In_nth_error in Hp. destruct Hp as (n & Hn). rewrite combine_nth_error in Hn. destruct (nth_error l n) as [c|] eqn:E; [|discriminate Hn].
    cbn in Hn. injection Hn as <-. apply (H n c E). }
  induction (combine (seq 0 (length l)) l) as [|p q IH]; [exists []; reflexivity|].
  destruct (W p (or_introl eq_refl)) as (c & Ec). destruct IH as (r & Er); [intros p' Hp'; apply W; right; exact Hp'|].
  exists (c :: r). cbn. rewrite Ec. cbn [rbind]. rewrite Er. reflexivity.
Qed.
Lemma zarange_len z : length (zarange z) = Z.to_nat z.
Proof. unfold zarange. rewrite map_length, seq_length. reflexivity. Qed.
Lemma ttv_no_transits : forall k ttvs ttvs' kw o, ttv_init k (targs_of (Some ttvs') None None kw) = Ok o -> length ttvs = length ttvs' -> In [] ttvs ->
  ttv_init k (targs_of (Some ttvs) None None kw) = Err ValueError.
Proof.
  intros k ttvs ttvs' kw o H L Hi. unfold ttv_init in *. cbn [ta_ttvs ta_inds ta_kw ta_times targs_of] in *.
  destruct (kep_call k kw) as [u|]; [|discriminate H]. cbn [rbind] in *.
  destruct (imap _ ttvs') as [tms|] eqn:E; [|discriminate H]. clear H. apply imap_ok in E. destruct E as [_ E].
  assert (X : forall i, (i < length ttvs)%nat -> exists t0 p, tix (o_t0 u) i = Ok t0 /\ tix (o_period u) i = Ok p).
  { intros i Li. destruct (nth_error ttvs' i) as [a|] eqn:Ea; [|apply nth_error_None in Ea; lia]. destruct (E i a Ea) as (c & _ & Ec).
    destruct (tix (o_t0 u) i) as [t0|]; [|discriminate Ec]. cbn [rbind] in Ec. destruct (tix (o_period u) i) as [p|]; [|discriminate Ec].
    exists t0, p. split; reflexivity. }
  assert (Y : forall i a, nth_error ttvs i = Some a -> (i < length ttvs)%nat) by (intros i a Ea; apply nth_error_Some; congruence).
  destruct (imap_total (fun i ttv => t0 <- tix (o_t0 u) i ;; p <- tix (o_period u) i ;;
     z <- lix (map (fun ttv => zarange (Z.of_nat (length ttv))) ttvs) i ;; ttv_labelled t0 p z ttv) ttvs) as (tt & Et).
  { intros i a Ea. destruct (X i (Y i a Ea)) as (t0 & p & -> & ->). cbn [rbind]. unfold lix. rewrite nth_error_map, Ea. cbn [option_map rbind].
    unfold ttv_labelled. rewrite lmap2_len; [eexists; reflexivity|]. rewrite map_length, zarange_len. lia. }
  rewrite Et. cbn [rbind]. apply imap_ok in Et. destruct Et as [Lt Et].
  unfold ttv_finish. rewrite (imap_err _ _ ValueError); [reflexivity| |].
  - intros i a Ea. rewrite nth_error_map in Ea. destruct (nth_error ttvs i) as [v|] eqn:Ev; [|discriminate Ea]. cbn in Ea. injection Ea as <-.
    destruct (X i (Y i v Ev)) as (t0 & p & Q1 & Q2). destruct (Et i v Ev) as (c & Ec & Eq). rewrite Q1, Q2 in *. cbn [rbind] in *.
    unfold lix in *. rewrite nth_error_map, Ev in Eq. cbn [option_map rbind] in Eq. rewrite Ec. cbn [rbind].
    unfold ttv_labelled in Eq. rewrite lmap2_len in Eq by (rewrite map_length, zarange_len; lia). apply Ok_inj in Eq.
    destruct v as [|v0 v]; [right; reflexivity|left].
    destruct (all_fill t0 p (zarange (Z.of_nat (length (v0 :: v)))) c) as (m & r & _ & _ & Q & _).
    + intro F. assert (F' := f_equal (@length _) F). rewrite zarange_len in F'. cbn in F'. lia.
    + rewrite <- Eq, zarange_len, map_length, combine_length, map_length, zarange_len. lia.
    + unfold zarange. apply Injective_map_NoDup; [intros a b; lia|apply seq_NoDup].
    + intros z Hz. unfold zarange in Hz. apply in_map_iff in Hz. destruct Hz as (n & <- & _). lia.
    + exists r. exact Q.
  - apply In_nth_error in Hi. destruct Hi as (i & Ev). exists i, []. split; [rewrite nth_error_map, Ev; reflexivity|].
    destruct (X i (Y i _ Ev)) as (t0 & p & Q1 & Q2). destruct (Et i _ Ev) as (c & Ec & Eq). rewrite Q1, Q2 in *. cbn [rbind] in *.
    unfold lix. rewrite Ec. cbn [rbind]. reflexivity.
Qed.
Lemma no_transits_example : exists o, ttv_init ek (targs_of (Some [[Fin 0; Fin (1 / 2); Fin 0]; [Fin 1; Fin 0]]) None None (ex_tkw 2 ex_bs)) = Ok o /\
  ttv_init ek (targs_of (Some [[Fin 0; Fin (1 / 2); Fin 0]; []]) None None (ex_tkw 2 ex_bs)) = Err ValueError.
Proof.
  destruct (ttv_init ek (targs_of (Some [[Fin 0; Fin (1 / 2); Fin 0]; [Fin 1; Fin 0]]) None None (ex_tkw 2 ex_bs))) as [o|] eqn:E; [|discriminate E].
  exists o. split; [reflexivity|]. apply (ttv_no_transits _ _ _ _ _ E); [reflexivity|]. right. left. reflexivity.
Qed.
