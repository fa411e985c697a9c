(** * in_transit: systems of planets *)
From Coq Require Import Reals List Bool Arith ZArith Lra Lia Psatz Sorted.
From Verif Require Import Num CoreOps Inst M_units M_kepler M_fin M_tensor Spec_orbit Spec_params Spec_array
  L_real L_orbit L_params3 L_params4 L_fl L_fl2 L_fl3 L_tens L_shape L_transit L_transit2.
Import ListNotations.
Open Scope R_scope.

(** ** Systems *)
Section Y.
Variables (k : consts) (n : nat) (x : kargs tens) (xs : nat -> kargs R) (os : nat -> orbit R).
Hypothesis kok : consts_ok k.
Hypothesis sys : system k n x xs os.

Lemma opt_at n' (a : option tens) i : OSn n' a -> 
  option_map (fun v : tens => aget v i) a = option_map (fun v : tens => aget v (at_planet (i O))) a.
Proof.
  destruct a as [a|]; cbn; [|reflexivity]. intros [[_ E]|[_ E]]; f_equal; [apply E|apply E; reflexivity].
Qed.
Lemma qty_at n' (a : option (qty tens)) i : QSn n' a -> 
  option_map (map_qty (fun v : tens => aget v i)) a = option_map (map_qty (fun v : tens => aget v (at_planet (i O)))) a.
Proof.
  destruct a as [a|]; cbn; [|reflexivity]. unfold map_qty. intros [[_ E]|[_ E]]; do 2 f_equal; [apply E|apply E; reflexivity].
Qed.
Lemma sn_at {A} n' (a : arr A) i : Sn n' a -> aget a i = aget a (at_planet (i O)).
Proof. intros [[_ E]|[_ E]]; apply E; reflexivity. Qed.

Lemma args_at_any i : (i O < n)%nat -> args_at i x = fin_args (xs (i O)).
Proof.
  intro Hi. rewrite <- (sy_at _ _ _ _ _ sys _ Hi). destruct (sy_args _ _ _ _ _ sys).
  unfold args_at, map_args. 
  rewrite (qty_at n (ka_period x) i (qpp_sn n _ pl_period)),
    (qty_at n (ka_a x) i (qpp_sn n _ pl_a)),
    (qty_at n (ka_duration x) i (qpp_sn n _ pl_duration)),
    (qty_at n (ka_m_planet x) i (qpp_sn n _ pl_mp)),
    (qty_at n (ka_m_star x) i (qpp_sn n _ pl_ms)),
    (qty_at n (ka_r_star x) i (qpp_sn n _ pl_rs)),
    (qty_at n (ka_rho_star x) i (qpp_sn n _ pl_rho)),
    (opt_at n (ka_t0 x) i (opp_sn n _ pl_t0)),
    (opt_at n (ka_tper x) i (opp_sn n _ pl_tper)),
    (opt_at n (ka_incl x) i (opp_sn n _ pl_incl)),
    (opt_at n (ka_b x) i (opp_sn n _ pl_b)),
    (opt_at n (ka_ecc x) i (opp_sn n _ pl_ecc)),
    (opt_at n (ka_omega x) i (opp_sn n _ pl_omega)),
    (opt_at n (ka_sin_omega x) i (opp_sn n _ pl_sin)),
    (opt_at n (ka_cos_omega x) i (opp_sn n _ pl_cos)),
    (opt_at n (ka_Omega x) i (opp_sn n _ pl_Omega)),
    (opt_at n (ka_ror x) i (opp_sn n _ pl_ror)). reflexivity.
Qed.

Lemma system_orbit : exists o, kep_init k x = Ok o /\ orbit_sn n o /\ En n (o_n o) /\ En n (o_period o) /\
  forall i, (i O < n)%nat -> orbit_at i o = fin_orbit (os (i O)).
Proof.
  assert (K : forall i, (i O < n)%nat -> rmap (orbit_at i) (kep_init k x) = Ok (fin_orbit (os (i O)))).
  { intros i Hi. rewrite <- kep_init_at, args_at_any by assumption.
    apply kep_init_fin; [assumption|apply (sy_init _ _ _ _ _ sys _ Hi)|apply (sy_phys _ _ _ _ _ sys _ Hi)|apply (sy_dur _ _ _ _ _ sys _ Hi)]. }
  destruct (kep_init k x) as [o|e] eqn:E.
  - exists o. split; [reflexivity|]. destruct (kep_init_sn n k x o (sy_args _ _ _ _ _ sys) E) as (A & B & C).
    split; [exact A|]. split; [exact B|]. split; [exact C|]. intros i Hi. specialize (K i Hi). cbn [rmap] in K. apply Ok_inj in K. exact K.
  - specialize (K ix0 (sy_n _ _ _ _ _ sys)). discriminate K.
Qed.
End Y.

(** ** The list *)
Lemma filter_seq_sorted (f : nat -> bool) N : StronglySorted lt (filter f (seq 0 N)).
Proof.
  assert (G : forall s, StronglySorted lt (filter f (seq s N)) /\ Forall (fun y => (s <= y)%nat) (filter f (seq s N))).
  { induction N as [|N IH]; intro s; cbn; [split; constructor|].
    destruct (IH (S s)) as [H1 H2]. assert (H3 : Forall (fun y => (s < y)%nat) (filter f (seq (S s) N))).
    { eapply Forall_impl; [|exact H2]. intros; cbn in *; lia. }
    destruct (f s).
    - split; [constructor; assumption|]. constructor; [lia|]. eapply Forall_impl; [|exact H3]. intros; cbn in *; lia.
    - split; [assumption|]. eapply Forall_impl; [|exact H3]. intros; cbn in *; lia. }
  apply G.
Qed.

Section L.
Variables (n N : nat) (o : orbit tens).
Hypothesis So : orbit_sn n o.
Hypothesis Eno : En n (o_n o).
Hypothesis Epo : En n (o_period o).
Hypothesis Hn : (0 < n)%nat.
Variable w : bool -> tens -> tens.
Variable t : tens.
Hypothesis Ht : ash t = Ok [N].
Hypothesis Hw : T1 n N (w true t).
Variable cp : fl -> fl -> fl -> fl -> fl -> fl -> fl -> fl * fl * fl.
Variables (r : tens) (te : option tens).
Hypothesis Hr : Sn n r.
Hypothesis Hte : OSn n te.

Ltac sn := first
  [ assumption
  | apply Sn_lit
  | apply En_Sn; assumption
  | apply Sn_map; sn | apply Sn_map2; sn | apply Sn_map3; sn ].
Ltac en := first
  [ assumption
  | apply EN_map; en
  | apply EN_map2; en
  | apply EN_map2l; [en|sn]
  | apply EN_map2r; [sn|en]
  | apply EN_map3; en ].

Lemma lift_cp_sn a e cw sw ci si L : Sn n a -> Sn n e -> Sn n cw -> Sn n sw -> Sn n ci -> Sn n si -> Sn n L ->
  let '(x, y, z) := lift_cp cp a e cw sw ci si L in Sn n x /\ Sn n y /\ Sn n z.
Proof.
  intros H1 H2 H3 H4 H5 H6 H7. unfold lift_cp.
  set (sh := bcr (ash a) _). set (g := fun i : idx => cp (aget a i) (aget e i) (aget cw i) (aget sw i) (aget ci i) (aget si i) (aget L i)).
  assert (G : (sh = Ok [] /\ forall i i', g i = g i') \/ (sh = Ok [n] /\ forall i i', i O = i' O -> g i = g i')).
  { assert (S0 : Sn n (amap2 pair a (amap2 pair e (amap2 pair cw (amap2 pair sw (amap2 pair ci (amap2 pair si L))))))).
    { apply Sn_map2; [assumption|]. apply Sn_map2; [assumption|]. apply Sn_map2; [assumption|].
      apply Sn_map2; [assumption|]. apply Sn_map2; [assumption|]. apply Sn_map2; assumption. }
    destruct S0 as [[E C]|[E C]]; [left|right]; (split; [exact E|]).
    - intros i i'. specialize (C i i'). cbn in C. inversion C. unfold g. congruence.
    - intros i i' Ei. specialize (C i i' Ei). cbn in C. inversion C. unfold g. congruence. }
  split; [|split]; (destruct G as [[E C]|[E C]]; [left|right]; (split; [exact E|])).
  all: try (intros i i'; cbn; fold (g i); fold (g i'); rewrite (C i i'); reflexivity).
  all: intros i i' Ei; cbn; fold (g i); fold (g i'); rewrite (C i i' Ei); reflexivity.
Qed.

Lemma since_shape : EN n N (since_transit o w t).
Proof.
  unfold since_transit. assert (P := os_period _ _ So).
  assert (E : EN n N (nmod (w true t + nlit 0.5 * o_period o)%num (o_period o))).
  { apply T1_En; [|exact Epo]. apply T1_map2l; [exact Hw|]. sn. }
  en.
Qed.

Lemma window_shape : let '(ts, te0, flag) := transit_window o (lift_cp cp) r in Sn n ts /\ Sn n te0 /\ Sn n flag.
Proof.
  unfold transit_window. assert (S1 := os_a _ _ So). assert (S2 := os_r _ _ So). assert (S3 := os_period _ _ So).
  assert (S4 := os_b _ _ So). assert (S5 := os_si _ _ So). assert (S6 := os_ci _ _ So). assert (S7 := os_M0 _ _ So).
  assert (S8 := En_Sn _ _ Eno). assert (S9 := os_ecc _ _ So).
  destruct (o_ecc o) as [d|].
  - destruct S9 as (E1 & E2 & E3).
    assert (L := lift_cp_sn (o_a o) (e_ecc d) (e_cosw d) (e_sinw d) (o_cos_incl o + nzl (o_a o))%num (o_sin_incl o + nzl (o_a o))%num
      (o_r_star o + nzl (o_a o) + (r + nzl (o_a o)))%num).
    destruct (lift_cp cp _ _ _ _ _ _ _) as [[M1 M2] f]. destruct L as (L1 & L2 & L3); try sn.
    split; [sn|]. split; [sn|exact L3].
  - split; [sn|]. split; sn.
Qed.

Lemma mask_shape : let '(m, flag) := transit_mask o w (lift_cp cp) t r te in EN n N m /\ Sn n flag.
Proof.
  unfold transit_mask. assert (W := window_shape). destruct (transit_window o (lift_cp cp) r) as [[a b] f].
  destruct W as (W1 & W2 & W3). split; [|exact W3]. assert (D := since_shape).
  set (a' := match te with None => a | Some _ => _ end). set (b' := match te with None => b | Some _ => _ end).
  assert (A' : Sn n a') by (unfold a'; destruct te; [cbn in Hte; sn|assumption]).
  assert (B' : Sn n b') by (unfold b'; destruct te; [cbn in Hte; sn|assumption]).
  clearbody a' b'. en.
Qed.

(** the result in terms of single entries: mask value and error flag of time m
    and planet j *)
Variable entry : nat -> nat -> bool * fl.
Variable wf : idx -> bool -> fl -> fl.
Hypothesis Hwat : forall i, aget (w true t) i = wf i true (aget t (fun d => i (S d))).
Hypothesis Hentry : forall m j, (m < N)%nat -> (j < n)%nat ->
  let i := cons_ix j (cons_ix m ix0) in
  transit_mask (orbit_at i o) (wf i) cp (aget t (fun d => i (S d))) (aget r i) (option_map (fun a : tens => aget a i) te) = entry m j.

Lemma mask_at' i :
  let '(m, flag) := transit_mask o w (lift_cp cp) t r te in
  (aget m i, aget flag i) = transit_mask (orbit_at i o) (wf i) cp (aget t (fun d => i (S d))) (aget r i) (option_map (fun a : tens => aget a i) te).
Proof.
  unfold transit_mask, transit_window, since_transit, lift_cp, orbit_at.
  cbn [map_orbit o_ecc o_a o_r_star o_period o_b o_sin_incl o_cos_incl o_M0 o_n].
  rewrite <- Hwat.
  destruct (o_ecc o) as [d|]; cbn [option_map].
  - cbn [map_eccd e_ecc e_cosw e_sinw].
    match goal with |- _ = ?rhs => match rhs with context [cp ?a ?b ?c ?d ?e ?f ?h] =>
      remember (cp a b c d e f h) as cc eqn:Ec; destruct cc as [[M1 M2] fg];
      assert (E1 : M1 = fst (fst (cp a b c d e f h))) by (rewrite <- Ec; reflexivity);
      assert (E2 : M2 = snd (fst (cp a b c d e f h))) by (rewrite <- Ec; reflexivity);
      assert (E3 : fg = snd (cp a b c d e f h)) by (rewrite <- Ec; reflexivity);
      clear Ec; subst M1 M2 fg end end.
    destruct te; reflexivity.
  - destruct te; reflexivity.
Qed.

(** all error flags are zero *)
Definition flags_ok : bool := forallb (fun j => feq0 (snd (entry 0 j))) (seq 0 n).
Definition picked : list nat := filter (fun m => existsb (fun j => fst (entry m j)) (seq 0 n)) (seq 0 N).

Lemma kin_list : (0 < N)%nat ->
  kep_in_transit o w (lift_cp cp) t r te false = Ok (if flags_ok then picked else seq 0 N).
Proof.
  intro HN. unfold kep_in_transit. assert (Sh := mask_shape). assert (At := mask_at').
  destruct (transit_mask o w (lift_cp cp) t r te) as [m flag]. destruct Sh as [Sm Sf].
  unfold shape0. rewrite Ht. cbn [last rbind].
  assert (Hflag : forall j, (j < n)%nat -> aget flag (cons_ix j ix0) = snd (entry 0 j)).
  { intros j Hj. rewrite <- (Hentry 0 j HN Hj). rewrite <- (At (cons_ix j (cons_ix 0 ix0))). cbn [snd].
    rewrite (sn_at n flag _ Sf). symmetry. rewrite (sn_at n flag _ Sf). reflexivity. }
  assert (Tall : tall (teq0 flag) = Ok flags_ok).
  { unfold tall, teq0. cbn [ash amap]. unfold flags_ok. destruct Sf as [[E C]|[E C]]; rewrite E; cbn [rmap all_ix flat_map]; f_equal.
    - cbn [forallb aget amap]. rewrite andb_true_r. rewrite (C ix0 (cons_ix 0 ix0)). rewrite Hflag by assumption.
      assert (All : forall j, (j < n)%nat -> feq0 (snd (entry 0 j)) = feq0 (snd (entry 0 0))).
      { intros j Hj. rewrite <- Hflag by assumption. rewrite <- (Hflag 0%nat) by assumption. f_equal. apply C. }
      destruct (feq0 (snd (entry 0 0))) eqn:E0.
      + symmetry. apply forallb_forall. intros j Hj. apply in_seq in Hj. rewrite All by lia. reflexivity.
      + symmetry. destruct n; [lia|]. cbn [seq forallb]. rewrite E0. reflexivity.
    - rewrite app_nil_r. rewrite forallb_map || idtac.
      assert (G : forall l, (forall j, In j l -> (j < n)%nat) ->
        forallb (aget (amap feq0 flag)) (map (fun j => cons_ix j ix0) l) = forallb (fun j => feq0 (snd (entry 0 j))) l).
      { induction l as [|j l IH]; intro Hl; [reflexivity|]. cbn [map forallb aget amap].
        rewrite Hflag by (apply Hl; left; reflexivity). rewrite <- IH by (intros; apply Hl; right; assumption). reflexivity. }
      apply G. intros j Hj. apply in_seq in Hj. lia. }
  rewrite Tall. cbn [rbind]. destruct flags_ok; [|unfold mask_axes, tany_last; unfold EN in Sm; rewrite Sm; reflexivity].
  unfold arange_mask, tany_last. unfold EN in Sm. rewrite Sm. cbn [ash]. rewrite Nat.eqb_refl. f_equal. unfold picked.
  assert (G : forall l, (forall q, In q l -> (q < N)%nat) ->
     filter (fun i => existsb (fun j => aget m (cons_ix j (cons_ix i ix0))) (seq 0 n)) l
     = filter (fun q => existsb (fun j => fst (entry q j)) (seq 0 n)) l).
  { induction l as [|q l IH]; intro Hl; [reflexivity|]. cbn [filter].
    rewrite IH by (intros; apply Hl; right; assumption).
    assert (E : existsb (fun j => aget m (cons_ix j (cons_ix q ix0))) (seq 0 n) = existsb (fun j => fst (entry q j)) (seq 0 n)).
    { assert (Hq : (q < N)%nat) by (apply Hl; left; reflexivity).
      assert (G' : forall l', (forall j, In j l' -> (j < n)%nat) -> existsb (fun j => aget m (cons_ix j (cons_ix q ix0))) l' = existsb (fun j => fst (entry q j)) l').
      { induction l' as [|j l' IH']; intro Hl'; [reflexivity|]. cbn [existsb]. rewrite IH' by (intros; apply Hl'; right; assumption).
        f_equal. rewrite <- (Hentry q j Hq (Hl' j (or_introl eq_refl))). rewrite <- (At (cons_ix j (cons_ix q ix0))). reflexivity. }
      apply G'. intros j Hj. apply in_seq in Hj. lia. }
    rewrite E. reflexivity. }
  apply G. intros q Hq. apply in_seq in Hq. lia.
Qed.

Lemma kin_nil : N = 0%nat -> kep_in_transit o w (lift_cp cp) t r te false = Ok [].
Proof.
  intro HN. unfold kep_in_transit. assert (Sh := mask_shape).
  destruct (transit_mask o w (lift_cp cp) t r te) as [m flag]. destruct Sh as [Sm Sf].
  unfold shape0. rewrite Ht, HN. cbn [last rbind].
  assert (exists b, tall (teq0 flag) = Ok b) as [b ->].
  { unfold tall, teq0. cbn [ash amap]. destruct Sf as [[E _]|[E _]]; rewrite E; cbn [rmap]; eexists; reflexivity. }
  cbn [rbind]. destruct b; [|unfold mask_axes, tany_last; unfold EN in Sm; rewrite Sm; reflexivity].
  unfold arange_mask, tany_last. unfold EN in Sm. rewrite Sm, HN. reflexivity.
Qed.
End L.
