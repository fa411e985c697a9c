(** * TTVOrbit: regression, round trip, keyword handling *)
From Coq Require Import Reals List Bool Arith ZArith Lra Lia Psatz Sorted String.
From Verif Require Import Num CoreOps Inst M_units M_kepler M_kwargs M_fin M_tensor M_ttv Spec_orbit Spec_params Spec_array Spec_ttv
  L_real L_fl L_kwargs L_params3 L_pmotion2 L_shape L_ttv1 L_ttv2 L_ttv3.
Import ListNotations.
Open Scope R_scope.
Local Notation length := List.length.

(** ** period and t0 keywords *)
Section G.
Context {T B : Type} {N : Num T B}.
Lemma rbind_ok {A C} (e : res A) (f : A -> res C) r : rbind e f = Ok r -> exists v, e = Ok v /\ f v = Ok r.
Proof. destruct e as [v|]; cbn; [intro H; exists v; auto|discriminate]. Qed.
Lemma ci_period k a p rho r m mp A P RHO RS MS MP : consistent_inputs k a (Some (plain p)) rho r m mp = Ok (A, P, RHO, RS, MS, MP) -> P = p.
Proof.
  intro H. unfold consistent_inputs in H. cbn [is_none] in H. rewrite andb_false_r in H.
  repeat (apply rbind_ok in H; let v := fresh "v" in let Hv := fresh "E" in destruct H as (v & Hv & H)).
  destruct v2 as [[rho' rs'] ms']. cbn in E1. apply Ok_inj in E1. subst v1. destruct v0; apply Ok_inj in H; congruence.
Qed.
Lemma init_period k (x : kargs T) o p : kep_init k x = Ok o -> ka_period x = Some (plain p) -> o_period o = p.
Proof.
  intros H E. unfold kep_init in H. apply rbind_ok in H. destruct H as ([mp rho] & _ & H).
  apply rbind_ok in H. destruct H as ([[[a r] d] g] & _ & H). apply rbind_ok in H. destruct H as ([[[[[A P] RHO] RS] MS] MP] & C & H).
  cbv zeta in H. apply rbind_ok in H. destruct H as (ed & _ & H). apply rbind_ok in H. destruct H as ([[[b ci] inc] du] & _ & H).
  apply rbind_ok in H. destruct H as ([t0 tp] & _ & H). apply Ok_inj in H. subst o. cbn. rewrite E in C. apply ci_period in C. exact C.
Qed.
Lemma init_t0 k (x : kargs T) o t : kep_init k x = Ok o -> ka_t0 x = Some t -> o_t0 o = t.
Proof.
  intros H E. unfold kep_init in H. apply rbind_ok in H. destruct H as ([mp rho] & _ & H).
  apply rbind_ok in H. destruct H as ([[[a r] d] g] & _ & H). apply rbind_ok in H. destruct H as ([[[[[A P] RHO] RS] MS] MP] & C & H).
  cbv zeta in H. apply rbind_ok in H. destruct H as (ed & _ & H). apply rbind_ok in H. destruct H as ([[[b ci] inc] du] & _ & H).
  apply rbind_ok in H. destruct H as ([t0 tp] & Q & H). apply Ok_inj in H. subst o. cbn. unfold kep_times in Q. rewrite E in Q.
  destruct (ka_tper x); [discriminate Q|]. apply Ok_inj in Q. congruence.
Qed.
Lemma bind_args l (x : kargs T) : bind_kwargs l = Ok x ->
  kw_qty None "period" l = Ok (ka_period x) /\ kw_num "t0" l = Ok (ka_t0 x).
Proof.
  intro H. unfold bind_kwargs in H. apply rbind_ok in H. destruct H as (p & Ep & H). apply rbind_ok in H. destruct H as (a & _ & H).
  apply rbind_ok in H. destruct H as (t0 & Et & H). split; [rewrite Ep|rewrite Et]; f_equal;
  repeat (apply rbind_ok in H; destruct H as (? & _ & H)); apply Ok_inj in H; subst x; reflexivity.
Qed.
Lemma call_period k l o p : kep_call k l = Ok o -> lookup "period" l = Some (KNum (plain p)) -> o_period o = p.
Proof.
  intros H E. apply rbind_ok in H. destruct H as (x & Hx & H). apply bind_args in Hx. destruct Hx as [Hx _]. unfold kw_qty in Hx. rewrite E in Hx.
  apply Ok_inj in Hx. apply (init_period k x o p H). auto.
Qed.
Lemma call_t0 k l o p : kep_call k l = Ok o -> lookup "t0" l = Some (KNum (plain p)) -> o_t0 o = p.
Proof.
  intros H E. apply rbind_ok in H. destruct H as (x & Hx & H). apply bind_args in Hx. destruct Hx as [_ Hx]. unfold kw_num, kw_qty in Hx. rewrite E in Hx.
  cbn in Hx. apply Ok_inj in Hx. apply (init_t0 k x o p H). auto.
Qed.
End G.

(** ** Construction from transit_times *)
Lemma tstack_at l a i v : tstack l = Ok a -> nth_error l i = Some v -> entry a i = v /\ tix a i = Ok v.
Proof.
  intros H E. assert (Hi := nth_error_some_lt _ _ _ E). destruct l as [|y l]; [discriminate H|]. apply Ok_inj in H. subst a.
  set (m := length (y :: l)) in *. assert (Q : (if Nat.eqb m 1 then O else i) = i). { destruct (Nat.eqb_spec m 1); [lia|reflexivity]. }
  split.
  - unfold entry. cbn [aget at_planet]. change (nth (if Nat.eqb m 1 then O else i) (y :: l) NaN = v). rewrite Q. apply nth_error_nth. exact E.
  - unfold tix. cbn [ash]. fold m. destruct (Nat.ltb_spec i m); [|lia]. cbn [aget]. fold m. rewrite Q. f_equal. apply nth_error_nth. exact E.
Qed.

Lemma times_init k x o times : ttv_init k x = Ok o -> ta_ttvs x = None -> ta_times x = Some times ->
  tt_times o = times /\ length (tt_ttvs o) = length times /\ length (tt_inds o) = length times /\
  (exists kw, ttv_kwargs (tt_period o) (o_t0 (tt_orbit o)) (ta_kw x) = Ok kw /\ kep_call k kw = Ok (tt_orbit o)) /\
  forall i tt, nth_error times i = Some tt -> exists inds s c r,
    given_labels x i tt = Some inds /\ nth_error (tt_inds o) i = Some inds /\ nth_error (tt_ttvs o) i = Some r /\
    ttv_fit inds tt = Ok (s, c, r) /\ entry (tt_period o) i = s /\ tix (tt_period o) i = Ok s /\
    entry (o_t0 (tt_orbit o)) i = c /\ tix (o_t0 (tt_orbit o)) i = Ok c.
Proof.
  intros H H1 H2. unfold ttv_init in H. rewrite H1, H2 in H.
  apply rbind_ok in H. destruct H as (fits & E1 & H). apply rbind_ok in H. destruct H as (t0 & E2 & H).
  apply rbind_ok in H. destruct H as (P & E3 & H). apply rbind_ok in H. destruct H as (kw & E4 & H).
  apply rbind_ok in H. destruct H as (ob & E5 & H). destruct (finish_ok _ _ _ _ _ _ H) as (A1 & A2 & A3 & A4 & A5 & _).
  apply imap_ok in E1. destruct E1 as [L1 I1].
  assert (ET : o_t0 ob = t0).
  { apply (call_t0 k kw ob t0 E5). unfold ttv_kwargs in E4. destruct (lookup "period" _); [apply Ok_inj in E4; subst kw; reflexivity|].
    destruct (lookup "delta_log_period" _) as [[|q|u]|]; try discriminate E4; apply Ok_inj in E4; subst kw; reflexivity. }
  rewrite A1, A2, A3, A4, A5, !map_length, ET. split; [reflexivity|]. split; [exact L1|]. split; [exact L1|].
  split; [exists kw; auto|]. intros i tt Hi. destruct (I1 i tt Hi) as ([z f] & Hf & E). unfold fit_planet in E.
  apply rbind_ok in E. destruct E as (z' & Ez & E). apply rbind_ok in E. destruct E as ([[s c] r] & Ef & E). apply Ok_inj in E. injection E as -> <-.
  exists z, s, c, r.
  assert (Q2 : nth_error (map (fun f : list Z * (fl * fl * list fl) => intercept_of (snd f)) fits) i = Some c) by (rewrite nth_error_map, Hf; reflexivity).
  assert (Q3 : nth_error (map (fun f : list Z * (fl * fl * list fl) => slope_of (snd f)) fits) i = Some s) by (rewrite nth_error_map, Hf; reflexivity).
  destruct (tstack_at _ _ _ _ E2 Q2) as [U1 U2]. destruct (tstack_at _ _ _ _ E3 Q3) as [V1 V2].
  split. { unfold given_labels. destruct (ta_inds x) as [l|]; [|apply Ok_inj in Ez; congruence]. unfold lix in Ez. destruct (nth_error l i); [apply Ok_inj in Ez; congruence|discriminate Ez]. }
  split; [rewrite nth_error_map, Hf; reflexivity|]. split; [rewrite nth_error_map, Hf; reflexivity|].
  split; [exact Ef|]. auto.
Qed.

(** ** C30 *)
Lemma ttv_least_squares k x o times : ttv_init k x = Ok o -> ta_ttvs x = None -> ta_times x = Some times ->
  forall i ys, nth_error times i = Some (map Fin ys) ->
  exists inds, given_labels x i (map Fin ys) = Some inds /\ nth_error (tt_inds o) i = Some inds /\
  (length inds = length ys -> (exists p q, In p inds /\ In q inds /\ p <> q) ->
   exists a b, entry (o_t0 (tt_orbit o)) i = Fin a /\ entry (tt_period o) i = Fin b /\
     nth_error (tt_ttvs o) i = Some (map Fin (residuals inds ys a b)) /\
     (forall a' b', sse inds ys a b <= sse inds ys a' b' /\ (sse inds ys a' b' = sse inds ys a b -> a' = a /\ b' = b)) /\
     rsum (residuals inds ys a b) = 0 /\ rdot inds (residuals inds ys a b) = 0) /\
  (length inds = length ys -> ys <> [] -> (exists z, forall j, In j inds -> j = z) ->
   entry (o_t0 (tt_orbit o)) i = NaN /\ entry (tt_period o) i = NaN /\ nth_error (tt_ttvs o) i = Some (map (fun _ => NaN) ys)).
Proof.
  intros H H1 H2 i ys Hi. destruct (times_init k x o times H H1 H2) as (_ & _ & _ & _ & F).
  destruct (F i _ Hi) as (inds & s & c & r & G1 & G2 & G3 & G4 & G5 & _ & G7 & _). exists inds. split; [exact G1|]. split; [exact G2|]. split.
  - intros L two. rewrite (fit_fin inds ys L two) in G4. apply Ok_inj in G4. injection G4 as <- <- <-.
    exists (fit_a inds ys), (fit_b inds ys). split; [exact G7|]. split; [exact G5|]. split; [exact G3|].
    split; [apply (fit_min inds ys L two)|apply (fit_res inds ys L two)].
  - intros L Hy one. rewrite (fit_nan inds ys L Hy one) in G4. apply Ok_inj in G4. injection G4 as <- <- <-. auto.
Qed.

(** ** C31 *)
Lemma res_len inds ys a b : length inds = length ys -> length (residuals inds ys a b) = length ys.
Proof. revert ys. induction inds as [|i l IH]; intros [|v y] H; try discriminate H; [reflexivity|]. cbn in *. rewrite IH by lia. reflexivity. Qed.
Lemma labelled_fin inds ys a b : length inds = length ys -> ttv_labelled (Fin a) (Fin b) inds (map Fin (residuals inds ys a b)) = Ok (map Fin ys).
Proof.
  intro L. unfold ttv_labelled. rewrite lmap2_len by (rewrite !map_length, res_len; assumption). f_equal.
  revert ys L. induction inds as [|i l IH]; intros [|v y] H; try discriminate H; [reflexivity|]. cbn in *. rewrite IH by lia. f_equal. f_equal. ring.
Qed.

Lemma ttv_round_trip k x o times : ttv_init k x = Ok o -> ta_ttvs x = None -> ta_times x = Some times ->
  lookup "period" (ta_kw x) = None -> lookup "delta_log_period" (ta_kw x) = None ->
  (forall i inds tt, nth_error (tt_inds o) i = Some inds -> nth_error times i = Some tt ->
     length inds = length tt /\ (exists p q, In p inds /\ In q inds /\ p <> q) /\ exists ys, tt = map Fin ys) ->
  ttv_init k (from_ttvs (tt_ttvs o) (tt_inds o) (tt_period o) (o_t0 (tt_orbit o)) (ta_kw x)) = Ok o.
Proof.
  intros H H1 H2 Np Nd G. destruct (times_init k x o times H H1 H2) as (T1 & T2 & T3 & (kw & Ek & Ec) & T4).
  destruct (ttv_init_finish k x o H) as (F & _).
  assert (Kw : kw = ("period"%string, KNum (plain (tt_period o))) :: ("t0"%string, KNum (plain (o_t0 (tt_orbit o)))) :: ta_kw x).
  { unfold ttv_kwargs in Ek. cbn [lookup String.eqb] in Ek. change (String.eqb "period" "t0") with false in Ek. change (String.eqb "delta_log_period" "t0") with false in Ek.
    cbv iota in Ek. rewrite Np, Nd in Ek. apply Ok_inj in Ek. congruence. }
  subst kw. unfold ttv_init. cbn [ta_ttvs ta_times ta_inds ta_kw from_ttvs]. rewrite Ec. cbn [rbind].
  assert (EP : o_period (tt_orbit o) = tt_period o) by (apply (call_period k _ _ _ Ec); reflexivity).
  rewrite EP, <- F. replace (imap _ (tt_ttvs o)) with (Ok (A := list (list fl)) times); [cbn [rbind]; rewrite T1; reflexivity|].
  symmetry. apply imap_intro; [lia|]. intros i ttv tt Ht Et.
  destruct (T4 i tt Et) as (inds & s & c & r & G1 & G2 & G3 & G4 & G5 & G6 & G7 & G8). rewrite G8, G6. cbn [rbind]. unfold lix. rewrite G2. cbn [rbind].
  destruct (G i inds tt G2 Et) as (L & two & ys & ->). rewrite map_length in L. rewrite Ht in G3. injection G3 as ->.
  rewrite (fit_fin inds ys L two) in G4. apply Ok_inj in G4. injection G4 as <- <- <-. apply labelled_fin, L.
Qed.

(** transit_times of TTVOrbit(ttvs = ...) *)
Lemma ttvs_init k x o ttvs : ttv_init k x = Ok o -> ta_ttvs x = Some ttvs ->
  tt_ttvs o = ttvs /\ tt_period o = o_period (tt_orbit o) /\ kep_call k (ta_kw x) = Ok (tt_orbit o) /\
  tt_inds o = match ta_inds x with None => map (fun ttv => zarange (Z.of_nat (length ttv))) ttvs | Some l => l end /\
  length (tt_times o) = length ttvs /\
  forall i ttv, nth_error ttvs i = Some ttv -> exists inds t0 p tt, nth_error (tt_inds o) i = Some inds /\
    tix (o_t0 (tt_orbit o)) i = Ok t0 /\ tix (o_period (tt_orbit o)) i = Ok p /\ nth_error (tt_times o) i = Some tt /\
    ttv_labelled t0 p inds ttv = Ok tt.
Proof.
  intros H H1. unfold ttv_init in H. rewrite H1 in H. set (inds := match ta_inds x with None => _ | Some l => l end) in *.
  apply rbind_ok in H. destruct H as (ob & E & H). apply rbind_ok in H. destruct H as (times & E1 & H).
  destruct (finish_ok _ _ _ _ _ _ H) as (A1 & A2 & A3 & A4 & A5 & _). apply imap_ok in E1. destruct E1 as [L1 I1].
  rewrite A1, A2, A3, A4, A5. split; [reflexivity|]. split; [reflexivity|]. split; [exact E|]. split; [reflexivity|]. split; [exact L1|].
  intros i ttv Ht. destruct (I1 i ttv Ht) as (tt & E2 & E3). apply rbind_ok in E3. destruct E3 as (t0 & Q1 & E3).
  apply rbind_ok in E3. destruct E3 as (p & Q2 & E3). apply rbind_ok in E3. destruct E3 as (z & Q3 & E3).
  exists z, t0, p, tt. split; [|auto]. unfold lix in Q3. destruct (nth_error inds i); [apply Ok_inj in Q3; congruence|discriminate Q3].
Qed.
Lemma ttv_labels k x o ttvs : ttv_init k x = Ok o -> ta_ttvs x = Some ttvs ->
  tt_ttvs o = ttvs /\ forall i ttv, nth_error ttvs i = Some ttv ->
  exists inds t0 p tt, tix (o_t0 (tt_orbit o)) i = Ok t0 /\ tix (o_period (tt_orbit o)) i = Ok p /\ nth_error (tt_inds o) i = Some inds /\ nth_error (tt_times o) i = Some tt /\
  (ta_inds x = None -> inds = map Z.of_nat (seq 0 (length ttv))) /\ (forall l, ta_inds x = Some l -> nth_error l i = Some inds) /\
  (length inds = length ttv -> length tt = length ttv /\
   forall q z v, nth_error inds q = Some z -> nth_error ttv q = Some v ->
   nth_error tt q = Some (fadd (fadd t0 (fmul p (Fin (IZR z)))) v)).
Proof.
  intros H H1. destruct (ttvs_init k x o ttvs H H1) as (E1 & E2 & E3 & E4 & E5 & E6). split; [exact E1|]. intros i ttv Ht.
  destruct (E6 i ttv Ht) as (inds & t0 & p & tt & G1 & G2 & G3 & G4 & G5). exists inds, t0, p, tt. split; [exact G2|]. split; [exact G3|]. split; [exact G1|]. split; [exact G4|].
  split. { intro En. rewrite En in E4. rewrite E4, nth_error_map, Ht in G1. cbn in G1. injection G1 as <-. unfold zarange. rewrite Nat2Z.id. reflexivity. }
  split. { intros l El. rewrite El in E4. rewrite <- E4. exact G1. }
  intro L. unfold ttv_labelled in G5. rewrite lmap2_len in G5 by (rewrite map_length; exact L). apply Ok_inj in G5. subst tt.
  split. { rewrite map_length, combine_length, map_length. lia. }
  intros q z v Hz Hv. rewrite nth_error_map.
  assert (C : forall (A C : Type) (a : list A) (b : list C) q x y, nth_error a q = Some x -> nth_error b q = Some y -> nth_error (combine a b) q = Some (x, y)).
  { clear. intros A C a. induction a as [|u a IH]; intros [|w b] [|q] x y; cbn; try discriminate; [intros [= ->] [= ->]; reflexivity|apply IH]. }
  rewrite (C _ _ _ _ q (fadd t0 (fmul p (Fin (IZR z)))) v); [reflexivity| |exact Hv]. rewrite nth_error_map, Hz. reflexivity.
Qed.

(** ** C33 *)
Lemma set_nth_forall {A} (Q : A -> Prop) l i v : Q v -> Forall Q l -> Forall Q (set_nth l i v).
Proof. intros Hv H. revert i. induction H as [|x l Hx H IH]; intros [|i]; cbn; auto. Qed.
Lemma set_all_forall {A} (Q : A -> Prop) ps : forall l r, Forall Q l -> Forall (fun p => Q (snd p)) ps -> set_all l ps = Ok r -> Forall Q r.
Proof.
  induction ps as [|[z v] ps IH]; intros l r Hl Hp H; cbn in H; [apply Ok_inj in H; congruence|]. inversion Hp; subst.
  apply rbind_ok in H. destruct H as (i & _ & H). apply (IH _ _ (set_nth_forall Q l i v ltac:(assumption) Hl) ltac:(assumption) H).
Qed.
Lemma set_sub_forall {A} (Q : A -> Prop) l inds vals r : Forall Q l -> Forall Q vals -> set_subtensor l inds vals = Ok r -> Forall Q r.
Proof.
  intros Hl Hv H. assert (K : forall ps, Forall (fun p : Z * A => Q (snd p)) ps -> set_all l ps = Ok r -> Forall Q r) by (intros ps Hp Hs; exact (set_all_forall Q ps l r Hl Hp Hs)).
  assert (C : Forall (fun p : Z * A => Q (snd p)) (combine inds vals)).
  { apply Forall_forall. intros [z v] Hin. apply in_combine_r in Hin. rewrite Forall_forall in Hv. apply (Hv v Hin). }
  unfold set_subtensor in H. destruct vals as [|v [|v' vals]].
  - destruct (Nat.eqb _ _); [|discriminate H]. apply (K _ C H).
  - apply (K (map (fun z => (z, v)) inds)); [|exact H]. apply Forall_forall. intros p Hp. apply in_map_iff in Hp. destruct Hp as (z & <- & _). inversion Hv; assumption.
  - destruct (Nat.eqb _ _); [|discriminate H]. apply (K _ C H).
Qed.
Lemma lmap2_forall {A C D} (Q : D -> Prop) (f : A -> C -> D) a b r : (forall x y, In x a -> In y b -> Q (f x y)) -> lmap2 f a b = Ok r -> Forall Q r.
Proof.
  intros H E. apply Forall_forall. intros d Hd. unfold lmap2 in E. destruct (Nat.eqb _ _).
  - apply Ok_inj in E. subst r. apply in_map_iff in Hd. destruct Hd as ([x y] & <- & Hp). cbn. apply H; [apply in_combine_l in Hp|apply in_combine_r in Hp]; assumption.
  - destruct a as [|x [|x' a]]; destruct b as [|y [|y' b]]; try discriminate E; apply Ok_inj in E; subst r; apply in_map_iff in Hd; destruct Hd as (u & <- & Hu);
      first [apply H; [left; reflexivity|assumption]|apply H; [assumption|left; reflexivity]].
Qed.

Section Z.
Variables (k : consts) (n : nat) (o : ttvorbit) (os : nat -> orbit R) (tts : nat -> list R).
Hypothesis kok : consts_ok k.
Hypothesis sys : ttv_system k n o os tts.

Lemma under_at j : (j < n)%nat -> aget (o_t0 (tt_orbit o)) (at_planet j) = Fin (o_t0 (os j)) /\ aget (o_period (tt_orbit o)) (at_planet j) = Fin (o_period (os j)).
Proof.
  intro Hj. destruct (under_facts k n 0 o os tts kok sys) as (_ & _ & _ & At). specialize (At (at_planet j) Hj). cbn [at_planet] in At.
  split; [apply (f_equal (@o_t0 fl)) in At|apply (f_equal (@o_period fl)) in At]; exact At.
Qed.
Lemma all_len : length (tt_inds o) = n.
Proof.
  destruct (tv_made _ _ _ _ _ sys) as (x & Hx). destruct (ttv_init_finish k x o Hx) as (F & _).
  destruct (finish_ok _ _ _ _ _ _ F) as (_ & _ & _ & _ & _ & L & _). rewrite (tv_all _ _ _ _ _ sys), map_length, seq_length in L. auto.
Qed.
Lemma sn_wf (a : tens) : Sn n a -> forall i, aget a (fun _ => i) = aget a (at_planet i).
Proof. intros [[_ C]|[_ C]] i; [apply C|apply C; reflexivity]. Qed.
Lemma tix_real a j v : Sn n a -> tix a j = Ok v -> aget a (at_planet j) = v.
Proof.
  intros S H. unfold tix in H. destruct (ash a) as [[|d [|]]|]; try discriminate H. destruct (Nat.ltb j d); [|discriminate H].
  apply Ok_inj in H. rewrite <- H. symmetry. apply sn_wf. exact S.
Qed.

(** with zero variations every transit lies on the linear ephemeris *)
Lemma zero_ttvs x ttvs : ttv_init k x = Ok o -> ta_ttvs x = Some ttvs -> (forall l, In l ttvs -> forall v, In v l -> v = Fin 0) ->
  forall j u, (j < n)%nat -> In u (tts j) -> exists q : Z, u = o_t0 (os j) + IZR q * o_period (os j).
Proof.
  intros Hx H1 H0 j u Hj Hu. destruct (ttvs_init k x o ttvs Hx H1) as (E1 & E2 & E3 & E4 & E5 & E6).
  destruct (under_facts k n 0 o os tts kok sys) as (So & _). destruct (under_at j Hj) as [U1 U2].
  destruct (ttv_init_finish k x o Hx) as (F & L1 & L2 & _). destruct (finish_ok _ _ _ _ _ _ F) as (_ & _ & _ & _ & _ & _ & _ & A).
  assert (L := all_len).
  destruct (nth_error (tt_inds o) j) as [z|] eqn:Ez; [|apply nth_error_None in Ez; lia].
  destruct (A j z Ez) as (t0 & p & tt & all & bin & B1 & B2 & B3 & B4 & B5 & _).
  apply (tix_real _ _ _ (os_t0 _ _ So)) in B1. apply (tix_real _ _ _ (os_period _ _ So)) in B2. rewrite U1 in B1. rewrite U2 in B2. subst t0 p.
  set (Q := fun v : fl => exists q : Z, v = Fin (o_t0 (os j) + IZR q * o_period (os j))).
  destruct (nth_error ttvs j) as [ttv|] eqn:Et; [|apply nth_error_None in Et; lia].
  destruct (E6 j ttv Et) as (z' & t0' & p' & tt' & C1 & C2 & C3 & C4 & C5). rewrite Ez in C1. injection C1 as <-. rewrite B3 in C4. injection C4 as <-.
  apply (tix_real _ _ _ (os_t0 _ _ So)) in C2. apply (tix_real _ _ _ (os_period _ _ So)) in C3. rewrite U1 in C2. rewrite U2 in C3. subst t0' p'.
  assert (Qt : Forall Q tt).
  { refine (lmap2_forall Q _ _ _ _ _ C5). intros a b Ha Hb. apply in_map_iff in Ha. destruct Ha as (q & <- & _).
    rewrite (H0 ttv (nth_error_In _ _ Et) b Hb). exists q. cbn. f_equal. ring. }
  assert (Qa : Forall Q all).
  { unfold ttv_all in B4. apply rbind_ok in B4. destruct B4 as (m & _ & B4). refine (set_sub_forall Q _ _ _ _ _ Qt B4).
    apply Forall_forall. intros v Hv. apply in_map_iff in Hv. destruct Hv as (q & <- & _). exists q. cbn. f_equal. ring. }
  rewrite (tv_all _ _ _ _ _ sys), nth_error_map in B5.
  rewrite (nth_error_nth' _ 0%nat) in B5 by (rewrite seq_length; lia). rewrite seq_nth in B5 by lia. cbn in B5. injection B5 as <-.
  rewrite Forall_forall in Qa. destruct (Qa (Fin u) (in_map Fin _ _ Hu)) as (q & Eq). exists q. injection Eq as ->. reflexivity.
Qed.
End Z.
