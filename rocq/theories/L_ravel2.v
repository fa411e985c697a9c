(** * Arrays of times of any shape: light curves *)
From Coq Require Import Reals Lra Lia List Bool Arith ZArith.
From Verif Require Import Num CoreOps Inst CoreFlux M_units M_kepler M_fin M_tensor M_simple M_ttv M_limbdark Spec_orbit Spec_params Spec_array Spec_simple Spec_ttv Spec_light Spec_undef Spec_ravel
  L_real L_orbit L_params3 L_fl L_flux L_tens L_shape L_transit3 L_transit4 L_shapeS L_reshape L_array L_light1 L_light2 L_light3 L_light4 L_light7 L_simple L_simple2 L_ttv3 L_ttv7 L_undef L_undef2 L_undef3 L_ravel.
Import ListNotations.
Local Notation length := List.length.
Open Scope R_scope.

Lemma bc_wS (n K : nat) (s : shape) : bc (1%nat :: K :: repeat 1%nat (length s)) (n :: K :: s) = Some (n :: K :: s).
Proof.
  cbn [bc]. rewrite bc_ones, Nat.eqb_refl. destruct (Nat.eqb_spec 1 n) as [<-|H]; [reflexivity|]. destruct n as [|[|?]]; reflexivity.
Qed.
Lemma flat_scalar (e : tens) q : ash e = Ok [] -> flat e q = aget e ix0.
Proof. intro E. unfold flat. rewrite E. reflexivity. Qed.

Section L.
Variables (l : limbdark) (A : orbit_api) (ld : bool) (n : nat) (P : nat -> fl -> fl * fl * fl) (rst : nat -> fl).
Hypothesis HA : answersF A ld n P.
Hypothesis Hrs : planetF n (oa_r_star A) rst.
Variables (r : tens) (rs : nat -> fl).
Hypothesis Er : ash r = Ok [n].
Hypothesis Vr : forall i, (i O < n)%nat -> aget r i = rs (i O).
Local Notation fluxF := (fluxF l P rst rs).
Local Notation meanF := (meanF l P rst rs).

Lemma tgridS s t e (eF : idx -> fl) (nodes : list R) :
  ash t = Ok s -> twf t -> (ash e = Ok [] \/ ash e = Ok (1%nat :: s)) -> twf e ->
  (forall i, inside (length nodes :: s) i -> aget e i = eF (fun k => i (S k))) ->
  let tg := nadd (apadr t) (nmul e (avec nodes)) in
  ash tg = Ok (length nodes :: s) /\ twf tg /\
  forall i, inside (length nodes :: s) i -> aget tg i = fadd (aget t (fun k => i (S k))) (fmul (eF (fun k => i (S k))) (Fin (nth (i O) nodes 0))).
Proof.
  intros Et Wt Se We He. cbv zeta. set (K := length nodes) in *. set (tg := nadd (apadr t) (nmul e (avec nodes))).
  assert (B1 : forall s : shape, bc (1%nat :: s) [K] = Some (K :: s)) by (intro u; cbn [bc]; rewrite bc_nil; destruct K as [|[|?]]; reflexivity).
  assert (B2 : forall s : shape, bc (1%nat :: s) (K :: s) = Some (K :: s)) by (intro u; cbn [bc]; rewrite bc_refl; destruct K as [|[|?]]; reflexivity).
  assert (St : ash tg = Ok (K :: s)).
  { unfold tg, apadr, avec. cbn [nadd nmul NumT amap2 ash]. rewrite Et. fold K. destruct Se as [Se|Se]; rewrite Se; cbn [rmap bcr].
    - change (bc [] [K]) with (Some [K]). cbn [bcr]. rewrite B1. reflexivity.
    - rewrite B1. cbn [bcr]. rewrite B2. reflexivity. }
  split; [exact St|]. split.
  { intros s0 Hs i i' Hi. rewrite St in Hs. injection Hs as <-. unfold tg, apadr, avec. cbn [nadd nmul NumT amap2 aget]. fold K. f_equal; [|f_equal].
    - apply (Wt _ Et). intros k Hk. apply (Hi (S k)). exact Hk.
    - destruct Se as [Se|Se]; apply (We _ Se); intros k Hk.
      + destruct k; cbn in Hk; contradiction.
      + apply Hi. destruct k as [|k]; cbn in *; [contradiction|exact Hk].
    - f_equal. unfold coord. destruct (Nat.eqb_spec K 1); [reflexivity|]. f_equal. apply (Hi O). cbn. assumption. }
  intros i Hi. unfold tg, apadr, avec. cbn [nadd nmul NumT amap2 aget]. fold K. destruct (inside_cons _ _ _ Hi) as [H0 H1].
  rewrite (He i Hi). unfold coord. destruct (Nat.eqb_spec K 1); [|reflexivity]. replace (i O) with O by lia. reflexivity.
Qed.

Lemma core_expS s t e (eF : idx -> fl) nodes weights :
  ash t = Ok s -> twf t -> (ash e = Ok [] \/ ash e = Ok (1%nat :: s)) -> twf e ->
  (forall i, inside (length nodes :: s) i -> aget e i = eF (fun k => i (S k))) ->
  length nodes = length weights ->
  exists X, (lc <- grid_flux l A r (nadd (apadr t) (nmul e (avec nodes))) ld ;;
             Ok (asum1 (nmul (apadr (apadl (length s) (avec weights))) lc))) = Ok X /\ ash X = Ok (n :: s) /\
    forall i, inside (n :: s) i -> aget X i = meanF nodes weights (i O) (aget t (fun k => i (S k))) (eF (fun k => i (S k))).
Proof.
  intros Et Wt0 Se We He HL. set (K := length nodes) in *. set (tg := nadd (apadr t) (nmul e (avec nodes))).
  destruct (tgridS s t e eF nodes Et Wt0 Se We He) as (St & Wt & Vt). fold K in St, Vt. fold tg in St, Wt, Vt.
  destruct (gridF l A ld n P rst HA Hrs r rs Er Vr (K :: s) tg St Wt) as (Y & E & SY & V).
  rewrite E. cbn [rbind]. eexists. split; [reflexivity|].
  assert (Sw : ash (nmul (apadr (apadl (length s) (avec weights))) Y) = Ok (n :: K :: s)).
  { unfold apadr, apadl, avec. cbn [nmul NumT amap2 ash rmap app repeat]. rewrite SY, <- HL. fold K. cbn [bcr app].
    exact (f_equal (fun o => match o with Some c => Ok c | None => Err ShapeErr end) (bc_wS n K s)). }
  split.
  - unfold asum1. rewrite Sw. reflexivity.
  - intros i Hi. destruct (inside_cons _ _ _ Hi) as [Hj Hm]. unfold asum1. rewrite Sw. cbn [aget]. unfold L_undef.meanF. fold K. f_equal. apply map_ext_in.
    intros k Hk. apply in_seq in Hk. destruct Hk as [_ Hk]. cbn in Hk.
    unfold apadr, apadl, avec. cbn [nmul NumT amap2 aget]. rewrite <- HL. fold K.
    assert (HI : inside (K :: s) (cons_ix k (fun q => i (S q)))) by (apply inside_cons_ix; assumption).
    rewrite V by (apply inside_cons_ix; [exact Hj|exact HI]).
    cbn [cons_ix]. f_equal.
    + unfold coord. destruct (Nat.eqb_spec K 1); [|reflexivity]. replace k with O by lia. reflexivity.
    + f_equal. etransitivity; [apply (Vt _ HI)|]. reflexivity.
Qed.
End L.

Section M.
Variables (l : limbdark) (A : orbit_api) (ld : bool) (n : nat) (P : nat -> fl -> fl * fl * fl) (rst : nat -> fl).
Hypothesis HA : answersF A ld n P.
Hypothesis Hrs : planetF n (oa_r_star A) rst.
Variables (r : tens) (sr : shape).
Hypothesis Sr : ash r = Ok sr.
Hypothesis Pr : prod sr = n.
Let r' := areshape (rmap (fun s => [prod s]) (ash r)) r.
Let rs j := flat r j.
(** the exposure time of element q *)
Definition exposure_at (e : option tens) (q : nat) : fl :=
  match e with None => Fin 0 | Some a => match ash a with Ok [] => aget a ix0 | _ => flat a q end end.
Definition exposures_ok (s : shape) (e : option tens) : Prop :=
  match e with None => True | Some a => twf a /\ (ash a = Ok [] \/ ash a = Ok s) end.
Lemma plainS s t e osam order nodes weights :
  ash t = Ok s -> twf t -> exposures_ok s e -> stencil osam order = Ok (nodes, weights) ->
  exists X, get_light_curve_checked l A r t e osam order false ld = Ok X /\ ash X = Ok (n :: s) /\
    forall q, (q < n * prod s)%nat -> flat X q = rowF l P rst r e nodes weights (q mod n) (flat t (q / n)) (exposure_at e (q / n)).
Proof.
  intros Et Wt He St. unfold get_light_curve_checked. cbv zeta. fold r'. cbn [rbind].
  assert (F : forall (X : tens) (g : nat -> idx -> fl), ash X = Ok (n :: s) -> (forall i, inside (n :: s) i -> aget X i = g (i O) (fun k => i (S k))) ->
     forall q, (q < n * prod s)%nat -> flat X q = g (q mod n)%nat (unlin s (q / n))).
  { intros X g SX V q Hq. unfold flat. rewrite SX. rewrite V by (apply unlin_inside; exact Hq). reflexivity. }
  assert (An : andim t = length s) by (unfold andim; rewrite Et; reflexivity). rewrite An.
  assert (Ft : forall q, flat t q = aget t (unlin s q)) by (intro q; unfold flat; rewrite Et; reflexivity).
  assert (Rsh : ash r' = Ok [n]) by exact (rF_sh n r sr Sr Pr).
  assert (Rv : forall i, (i O < n)%nat -> aget r' i = rs (i O)) by exact (rF_val n r sr Sr Pr).
  destruct e as [e|].
  - rewrite St. cbn [rbind]. assert (HL := stencil_len _ _ _ _ St). destruct He as [We Ee]. unfold rowF, exposure_at.
    destruct (ash e) as [[|d u]|x] eqn:Se; [| |destruct Ee; discriminate].
    + assert (E0 : andim e = O) by (unfold andim; rewrite Se; reflexivity). rewrite E0. cbn [Nat.eqb rbind].
      destruct (core_expS l A ld n P rst HA Hrs r' rs Rsh Rv s t e (fun _ => aget e ix0) nodes weights Et Wt (or_introl Se) We) as (X & EX & SX & VX); [|exact HL|].
      { intros i Hi. apply (We _ Se i ix0). intros k Hk. destruct k; cbn in Hk; contradiction. }
      useE EX. cbn [rbind]. rewrite SX. cbn [rbind]. exists X. split; [reflexivity|]. split; [exact SX|]. intros q Hq. rewrite Ft.
      exact (F X (fun j i => meanF l P rst rs nodes weights j (aget t i) (aget e ix0)) SX VX q Hq).
    + destruct Ee as [C|C]; [discriminate C|]. injection C as Es. subst s.
      assert (E0 : Nat.eqb (andim e) 0 = false) by (unfold andim; rewrite Se; reflexivity). rewrite E0. cbn [rbind].
      destruct (core_expS l A ld n P rst HA Hrs r' rs Rsh Rv (d :: u) t (apadr e) (fun i => aget e i) nodes weights Et Wt) as (X & EX & SX & VX); [| | |exact HL|].
      { right. unfold apadr. cbn [ash]. rewrite Se. reflexivity. }
      { intros s0 Hs i i' Hi. unfold apadr in Hs |- *. cbn [ash aget] in *. rewrite Se in Hs. cbn in Hs. injection Hs as <-. apply (We _ Se).
        intros k Hk. apply (Hi (S k)). exact Hk. }
      { intros i Hi. reflexivity. }
      useE EX. cbn [rbind]. rewrite SX. cbn [rbind]. exists X. split; [reflexivity|]. split; [exact SX|]. intros q Hq. rewrite Ft.
      replace (flat e (q / n)) with (aget e (unlin (d :: u) (q / n))) by (unfold flat; rewrite Se; reflexivity).
      exact (F X (fun j i => meanF l P rst rs nodes weights j (aget t i) (aget e i)) SX VX q Hq).
  - cbn [rbind]. destruct (gridF l A ld n P rst HA Hrs r' rs Rsh Rv s t Et Wt) as (X & EX & SX & VX).
    useE EX. cbn [rbind]. rewrite SX. cbn [rbind]. exists X. split; [reflexivity|]. split; [exact SX|]. intros q Hq. rewrite Ft. unfold rowF.
    exact (F X (fun j i => fluxF l P rst rs j (aget t i)) SX VX q Hq).
Qed.

Lemma exposures_same s e s' e' q : same_exposures s e s' e' -> (q < prod s)%nat ->
  exposures_ok s e /\ exposures_ok s' e' /\ exposure_at e q = exposure_at e' q.
Proof.
  intros H Hq. destruct e as [a|], e' as [a'|]; cbn in H; try contradiction; [|repeat split]. cbn.
  destruct H as [[E E' W W' P0 V]|[E E' W W' P0 V]].
  - split; [split; [exact W|left; exact E]|]. split; [split; [exact W'|left; exact E']|]. rewrite E, E'. assert (Q := V O ltac:(cbn; lia)). rewrite !flat_scalar in Q by assumption. exact Q.
  - split; [split; [exact W|right; exact E]|]. split; [split; [exact W'|right; exact E']|].
    assert (G : forall (b : tens) u, ash b = Ok u -> (q < prod u)%nat -> match ash b with Ok [] => aget b ix0 | _ => flat b q end = flat b q).
    { intros b u Eb Hb. rewrite Eb. destruct u as [|d u]; [|reflexivity]. symmetry. apply flat_scalar. exact Eb. }
    rewrite (G a s E Hq), (G a' s' E'); [apply V, Hq|]. rewrite <- P0. exact Hq.
Qed.
Lemma exposures_same' s e s' e' : same_exposures s e s' e' -> exposures_ok s e /\ exposures_ok s' e'.
Proof.
  intros H. destruct e as [a|], e' as [a'|]; cbn in H; try contradiction; [|split; exact I]. cbn.
  destruct H as [[E E' W W' P0 V]|[E E' W W' P0 V]].
  - split; [split; [exact W|left; exact E]|split; [exact W'|left; exact E']].
  - split; [split; [exact W|right; exact E]|split; [exact W'|right; exact E']].
Qed.
Variable use : option bool.
Hypothesis Hu : masks use ld = false.
Lemma curve_any : any_shape_curve n (fun t e osam order => get_light_curve l (Some A) (Some r) (Some t) e osam order use ld).
Proof.
  intros s t e s' t' e' osam order [E E' W W' Q V] He Ho Hor. destruct (stencil_exists osam order Ho Hor) as (nodes & weights & St).
  destruct (exposures_same' s e s' e' He) as [O1 O2].
  unfold get_light_curve. fold (masks use ld). rewrite Hu.
  destruct (plainS s t e osam order nodes weights E W O1 St) as (X & EX & SX & VX). destruct (plainS s' t' e' osam order nodes weights E' W' O2 St) as (X' & EX' & SX' & VX').
  exists X, X'. split; [exact EX|]. split; [exact EX'|]. split; [exact SX|]. split; [exact SX'|]. intros q Hq.
  assert (Hqn : (q / n < prod s)%nat) by (apply Nat.div_lt_upper_bound; [destruct n; [cbn in Hq; lia|discriminate]|exact Hq]).
  rewrite VX by exact Hq. rewrite VX' by (rewrite <- Q; exact Hq). rewrite (V _ Hqn). destruct (exposures_same s e s' e' (q / n) He Hqn) as (_ & _ & ->).
  unfold rowF. destruct e, e'; cbn in He; try contradiction; reflexivity.
Qed.
End M.

(** ** The orbits of the library *)
Lemma kepler_curve_any k n x o l r sr use ld cp : planet_args n x -> kep_init k x = Ok o -> ash r = Ok sr -> prod sr = n -> masks use ld = false ->
  any_shape_curve n (fun t e osam order => get_light_curve l (Some (kep_api k cp o)) (Some r) (Some t) e osam order use ld).
Proof.
  intros Px Hx Sr Pr Hu. apply (curve_any l (kep_api k cp o) ld n (kposF k o ld) (fun j => o_r_star (orbit_at (at_planet j) o))) with (sr := sr); try assumption.
  - apply (kepF k n x o Px Hx).
  - apply (kep_rst k n x o Px Hx).
Qed.
Lemma simple_curve_any n x xs l r sr : simple_system n x xs -> (forall j, (j < n)%nat -> simple_ok (xs j)) -> ash r = Ok sr -> prod sr = n ->
  any_shape_curve n (fun t e osam order => get_light_curve l (Some (simple_api (simple_init x))) (Some r) (Some t) e osam order (Some false) false).
Proof.
  intros sys ok Sr Pr. apply (curve_any l (simple_api (simple_init x)) false n (sposF xs) (fun j => Fin (dflt 1 (sa_r_star (xs j))))) with (sr := sr); try assumption.
  - apply (simpleF n x xs sys).
  - apply (simple_rst n x xs sys ok).
  - reflexivity.
Qed.
Lemma ttv_curve_any k n o os tts l r sr cp : consts_ok k -> ttv_system k n o os tts -> ash r = Ok sr -> prod sr = n ->
  any_shape_curve n (fun t e osam order => get_light_curve l (Some (ttv_api k cp o)) (Some r) (Some t) e osam order (Some false) false).
Proof.
  intros kok sys Sr Pr. apply (curve_any l (ttv_api k cp o) false n (tposF k o os) (fun j => Fin (o_r_star (os j)))) with (sr := sr); try assumption.
  - apply (ttvF k n o os tts kok sys).
  - apply (ttv_rst k n o os tts kok sys).
  - reflexivity.
Qed.

(** ** in_transit *)
Section I.
Variable n : nat.
Variable D : shape.
Variable o : orbit tens.
Hypothesis So : orbit_sn n o.
Hypothesis Eno : En n (o_n o).
Hypothesis Epo : En n (o_period o).
Variable w : bool -> tens -> tens.
Variable t : tens.
Hypothesis Ht : ash t = Ok D.
Hypothesis Hw : T1S n D (w true t).
Variable cp : fl -> fl -> fl -> fl -> fl -> fl -> fl -> fl * fl * fl.
Variables (r : tens) (te : option tens).
Hypothesis Hr : Sn n r.
Hypothesis Hte : OSn n te.
Ltac sn := first
  [ assumption | apply (Sn_lit n) | apply En_Sn; assumption
  | apply Sn_map; sn | apply Sn_map2; sn | apply Sn_map3; sn ].
Ltac en := first
  [ assumption
  | apply ENS_map; en
  | apply ENS_map2; en
  | apply ENS_map2l; [en|sn]
  | apply ENS_map2r; [sn|en]
  | apply ENS_map3; en ].
Lemma since_shapeS : ENS n D (since_transit o w t).
Proof.
  unfold since_transit. assert (P := os_period _ _ So).
  assert (E : ENS n D (nmod (w true t + nlit 0.5 * o_period o)%num (o_period o))).
  { apply T1S_En; [|exact Epo]. apply T1S_map2l; [exact Hw|]. sn. }
  en.
Qed.
Lemma mask_shapeS : ENS n D (fst (transit_mask o w (lift_cp cp) t r te)) /\ Sn n (snd (transit_mask o w (lift_cp cp) t r te)).
Proof.
  unfold transit_mask. assert (W := window_shape n o So Eno cp r Hr). destruct (transit_window o (lift_cp cp) r) as [[a b] f].
  destruct W as (W1 & W2 & W3). split; [|exact W3]. assert (S0 := since_shapeS). cbn [fst].
  set (a' := match te with None => a | Some _ => _ end). set (b' := match te with None => b | Some _ => _ end).
  assert (A' : Sn n a') by (unfold a'; destruct te; [cbn in Hte; sn|assumption]).
  assert (B' : Sn n b') by (unfold b'; destruct te; [cbn in Hte; sn|assumption]).
  clearbody a' b'. en.
Qed.
Lemma in_transit_axes : length D <> 1%nat -> kep_in_transit o w (lift_cp cp) t r te false = Err IndexErr.
Proof.
  intro HD. unfold kep_in_transit. assert (M := mask_shapeS). destruct (transit_mask o w (lift_cp cp) t r te) as [m flag]. cbn [fst snd] in M. destruct M as [Sm Sf].
  unfold shape0. rewrite Ht. destruct D as [|d u] eqn:ED; [reflexivity|]. cbn [rbind].
  assert (T : exists g, tany_last m = mkA (Ok (d :: u)) g) by (unfold tany_last; unfold ENS in Sm; rewrite Sm; eexists; reflexivity).
  destruct T as [g T]. rewrite T. unfold tall. assert (Fl : exists s0, ash (teq0 flag) = Ok s0) by (unfold teq0; cbn [ash amap]; destruct Sf as [[-> _]|[-> _]]; eexists; reflexivity).
  destruct Fl as [s0 ->]. cbn [rmap rbind]. destruct u as [|d' u]; [cbn in HD; lia|]. destruct (forallb _ _); reflexivity.
Qed.
End I.
(** one exposure time for all planets or one for each planet; only these have a
    defined meaning in in_transit *)
Lemma kepler_axes k n x o cp s t r e : planet_args n x -> kep_init k x = Ok o -> ash t = Ok s -> length s <> 1%nat -> per_planet n r -> opt_per_planet n e ->
  kep_in_transit o (kep_warp o) (lift_cp cp) t r e false = Err IndexErr.
Proof.
  intros Px Hx Et Hs Hr He. destruct (kep_init_sn n k x o Px Hx) as (So & Eno & Epo).
  apply (in_transit_axes n s o So Eno Epo (kep_warp o) t Et (kwT1S k n x o Px Hx s t Et) cp r e (pp_sn n r Hr) (opp_sn n _ He) Hs).
Qed.
Lemma ttv_axes k n o os tts cp s t r e : consts_ok k -> ttv_system k n o os tts -> ash t = Ok s -> length s <> 1%nat -> per_planet n r -> opt_per_planet n e ->
  kep_in_transit (tt_orbit o) (ttv_warp o) (lift_cp cp) t r e false = Err IndexErr.
Proof.
  intros kok sys Et Hs Hr He. destruct (ttv_parts k n o os tts kok sys) as (So & Eno & Epo & _ & _).
  apply (in_transit_axes n s (tt_orbit o) So Eno Epo (ttv_warp o) t Et (w'_T1S k n o os tts sys s t Et) cp r e (pp_sn n r Hr) (opp_sn n _ He) Hs).
Qed.
Lemma simple_axes n x xs s t r e : simple_system n x xs -> ash t = Ok s -> (2 <= length s)%nat -> opt_per_planet n r -> opt_per_planet n e ->
  simple_in_transit (simple_init x) t r e false = Err IndexErr.
Proof.
  intros sys Et Hs Hr He. unfold simple_in_transit, tsize. rewrite Et. cbn [rmap rbind].
  assert (E : ENS n s (simple_mask (B := btens) (simple_init x) t r e)).
  { assert (E := simple_dt_ens n x xs sys s t Et). destruct (simple_sn n x xs sys) as (S1 & S2 & S3 & S4). unfold simple_mask. apply ENS_map2l; [apply ENS_map; exact E|].
    assert (L : forall c, Sn n (nlit c : tens)) by (intro; apply Sn_lit).
    destruct r as [r|], e as [e|]; cbn in Hr, He; try (apply pp_sn in Hr); try (apply pp_sn in He); cbn [npw];
      repeat first [assumption | apply L | apply Sn_map | apply Sn_map2 | apply Sn_map3]. }
  unfold arange_mask, tany_last. unfold ENS in E. rewrite E. cbn [ash]. destruct s as [|d [|d' s]]; cbn in Hs; try lia. reflexivity.
Qed.
(** hence the default light curve *)
Lemma rows_pp n r sr : ash r = Ok sr -> prod sr = n -> per_planet n (areshape (rmap (fun s => [prod s]) (ash r)) r).
Proof.
  intros Sr Pr. assert (R := rF_sn n r sr Sr Pr). assert (S0 := rF_sh n r sr Sr Pr). split; [|right; exact S0].
  intros s Hs i i' Hi. rewrite Hs in S0. injection S0 as ->. destruct R as [[C _]|[_ R]]; [rewrite Hs in C; discriminate C|].
  destruct (Nat.eq_dec n 1) as [E1|E1]; [|apply R, Hi; exact E1].
  rewrite Sr. cbn [rmap]. rewrite !(reshape_at r sr [prod sr] _ Sr), Pr, E1. reflexivity.
Qed.
Lemma masked_axes l A r t e osam order use x : masks use false = true -> oa_in_transit A t (areshape (rmap (fun s => [prod s]) (ash r)) r) e false = Err x ->
  get_light_curve l (Some A) (Some r) (Some t) e osam order use false = Err x.
Proof.
  intros Hu H. unfold get_light_curve. fold (masks use false). rewrite Hu. unfold get_light_curve_checked. cbv zeta. rewrite H. reflexivity.
Qed.
