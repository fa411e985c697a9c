(** * SimpleTransitOrbit: several planets *)
From Coq Require Import Reals List Bool Arith ZArith Lra Lia Psatz Sorted.
From Verif Require Import Num CoreOps Inst M_units M_kepler M_fin M_tensor M_simple Spec_orbit Spec_params Spec_array Spec_simple
  L_real L_params3 L_fl L_tens L_shape L_transit L_transit2 L_transit3 L_transit4 L_transit6 L_array L_simple Ex_system.
Import ListNotations.
Open Scope R_scope.

Section S.
Variables (n N : nat) (x : sargs tens) (xs : nat -> sargs R) (t : tens) (ts : nat -> R).
Hypothesis sys : simple_system n x xs.
Hypothesis ok : forall j, (j < n)%nat -> simple_ok (xs j).
Hypothesis Ht : is_vector N t.
Hypothesis Hts : forall m, (m < N)%nat -> aget t (at_time m) = Fin (ts m).

Lemma sargs_at_any i : (i O < n)%nat -> map_sargs (fun a : tens => aget a i) x = map_sargs Fin (xs (i O)).
Proof.
  intro Hi. rewrite <- (ss_at _ _ _ sys _ Hi). destruct sys. unfold map_sargs.
  rewrite (sn_at n (sa_period x) i (pp_sn n _ (proj1 ss_period))), (sn_at n (sa_duration x) i (pp_sn n _ ss_duration)),
    (opt_at n (sa_t0 x) i (opp_sn n _ ss_t0)), (opt_at n (sa_b x) i (opp_sn n _ ss_b)),
    (opt_at n (sa_r_star x) i (opp_sn n _ ss_r_star)), (opt_at n (sa_ror x) i (opp_sn n _ ss_ror)). reflexivity.
Qed.

Lemma simple_dt_at i : aget (simple_dt (simple_init x) t) i
  = simple_dt (simple_init (map_sargs (fun a : tens => aget a i) x)) (aget t (fun d => i (S d))).
Proof. destruct x as [? ? [?|] [?|] [?|] [?|]]; reflexivity. Qed.
Lemma simple_mask_at r texp i : aget (simple_mask (simple_init x) t r texp) i
  = simple_mask (simple_init (map_sargs (fun a : tens => aget a i) x)) (aget t (fun d => i (S d)))
      (option_map (fun a : tens => aget a i) r) (option_map (fun a : tens => aget a i) texp).
Proof. destruct x as [? ? [?|] [?|] [?|] [?|]], r, texp; reflexivity. Qed.

Lemma dflt_sn d a : opt_per_planet n a -> Sn n (dflt (alit (Fin d)) a).
Proof. destruct a; cbn; [apply pp_sn|]. intros _. apply Sn_lit. Qed.
Lemma EN_map3l {A C D G} (f : A -> C -> D -> G) (a : arr A) c d : EN n N a -> ash c = Ok [] -> ash d = Ok [] -> EN n N (amap3 f a c d).
Proof. unfold EN. intros E E1 E2. cbn. rewrite E, E1, E2. cbn. reflexivity. Qed.

Ltac snl := repeat first [assumption | apply Sn_lit | apply Sn_map | apply Sn_map2 | apply dflt_sn ].
Lemma simple_dt_en : EN n N (simple_dt (simple_init x) t).
Proof.
  destruct sys. unfold simple_dt, simple_init. cbn [s_period s_t0 s_b s_duration s_r_star s_b_norm s_speed s_half_period s_ref_time].
  assert (Sp : Sn n (sa_period x)) by (apply pp_sn; apply ss_period).
  assert (Ep : En n (sa_period x)).
  { split; [exact Sp|]. destruct ss_period as [_ [E|[E _]]]; auto. }
  apply EN_map2l; [|snl]. apply T1_En; [|exact Ep]. apply T1_map2l; [apply padr_T1; apply Ht|]. snl.
Qed.
Lemma simple_sn : Sn n (s_speed (simple_init x)) /\ Sn n (s_b_norm (simple_init x)) /\ Sn n (s_duration (simple_init x)) /\ Sn n (s_r_star (simple_init x)).
Proof.
  destruct sys. unfold simple_init. cbn [s_period s_t0 s_b s_duration s_r_star s_b_norm s_speed s_half_period s_ref_time].
  assert (Sd : Sn n (sa_duration x)) by (apply pp_sn; exact ss_duration).
  split; [|split; [|split]]; cbn [npw]; snl.
Qed.

Lemma simple_table : exists V, simple_relative_position (simple_init x) t false = Ok V /\
  is_table3 n N V (fun m j => fin3 (spos (xs j) (ts m))).
Proof.
  eexists. split; [reflexivity|]. assert (E := simple_dt_en). destruct simple_sn as (S1 & S2 & S3 & S4).
  set (dt := simple_dt (simple_init x) t) in *.
  apply (table3 n N (s_speed (simple_init x) * dt, s_b_norm (simple_init x) + nzl dt, nsw (nlt (nabs dt) (nlit 0.5 * s_duration (simple_init x))) (nlit 1) (- nlit 1))%num).
  - cbn [fst snd]. split; [apply EN_map2r; assumption|]. split; [apply EN_map2r; [assumption|apply EN_map; assumption]|].
    apply EN_map3l; [|reflexivity|reflexivity]. apply EN_map2l; [apply EN_map; assumption|]. apply Sn_map2; [apply Sn_lit|assumption].
  - intros m j Hm Hj. assert (P := simple_pos_fin (xs j) (ok j Hj) (ts m)).
    assert (A := sargs_at_any (II n N m j)). rewrite (II0 n N m j Hj) in A. specialize (A Hj). rewrite <- A in P.
    rewrite <- (Hts m Hm), <- (time_at n N m j Hm t Ht) in P. unfold simple_relative_position in P. apply Ok_inj in P. rewrite <- P. clear P.
    unfold dt. destruct x as [? ? [?|] [?|] [?|] [?|]]; reflexivity.
Qed.

Lemma simple_list r texp : opt_per_planet n r -> opt_per_planet n texp ->
  simple_in_transit (simple_init x) t r texp false = Ok (filter (fun m => existsb (fun j =>
    aget (simple_mask (B := btens) (simple_init x) t r texp) (cons_ix j (cons_ix m ix0))) (seq 0 n)) (seq 0 N)).
Proof.
  intros Hr He. unfold simple_in_transit, tsize. rewrite (proj2 Ht). cbn [rmap rbind fold_right]. rewrite Nat.mul_1_r.
  assert (E : EN n N (simple_mask (B := btens) (simple_init x) t r texp)).
  { assert (E := simple_dt_en). destruct simple_sn as (S1 & S2 & S3 & S4). unfold simple_mask. apply EN_map2l; [apply EN_map; exact E|].
    destruct r as [r|], texp as [e|]; cbn in Hr, He; try (apply pp_sn in Hr); try (apply pp_sn in He); cbn [npw]; snl. }
  assert (T : tany_last (simple_mask (B := btens) (simple_init x) t r texp) = mkA (Ok [N]) (fun i => existsb (fun j =>
    aget (simple_mask (B := btens) (simple_init x) t r texp) (cons_ix j i)) (seq 0 n))).
  { unfold tany_last. unfold EN in E. rewrite E. reflexivity. }
  unfold arange_mask. rewrite T. cbn [ash]. rewrite Nat.eqb_refl. reflexivity.
Qed.

(** membership *)
Lemma simple_in (r : option tens) (texp : option tens) (Q : nat -> nat -> Prop) :
  opt_per_planet n r -> opt_per_planet n texp ->
  (forall m j, (m < N)%nat -> (j < n)%nat ->
    simple_mask (simple_init (map_sargs Fin (xs j))) (Fin (ts m)) (opt_at_planet j r) (opt_at_planet j texp) = true <-> Q m j) ->
  exists l, simple_in_transit (simple_init x) t r texp false = Ok l /\ StronglySorted lt l /\
    forall m, In m l <-> (m < N)%nat /\ exists j, (j < n)%nat /\ Q m j.
Proof.
  intros Hr He HQ. rewrite (simple_list r texp Hr He). eexists. split; [reflexivity|]. split; [apply filter_seq_sorted|].
  assert (M : forall m j, (m < N)%nat -> (j < n)%nat -> aget (simple_mask (simple_init x) t r texp) (cons_ix j (cons_ix m ix0)) = true <-> Q m j).
  { intros m j Hm Hj. rewrite simple_mask_at, (sargs_at_any (cons_ix j (cons_ix m ix0)) Hj), (time_at' N t ts Ht Hts j m Hm),
      (opt_at n r _ (opp_sn n _ Hr)), (opt_at n texp _ (opp_sn n _ He)). apply HQ; assumption. }
  intro m. rewrite filter_In, in_seq, existsb_exists. split.
  - intros [H1 (j & Hj & E)]. apply in_seq in Hj. split; [lia|]. exists j. split; [lia|]. apply M; [lia|lia|exact E].
  - intros [H1 (j & Hj & E)]. split; [lia|]. exists j. split; [apply in_seq; lia|]. apply M; assumption.
Qed.
Lemma opt_val (texp : option tens) es j : opt_values n texp es -> (j < n)%nat ->
  exists e, opt_at_planet j texp = option_map Fin e /\ pad_of e = es j.
Proof.
  destruct texp as [a|]; cbn; intros H Hj.
  - exists (Some (es j)). split; [|reflexivity]. cbn. rewrite (proj2 H j Hj). reflexivity.
  - exists None. split; [reflexivity|]. symmetry. apply H.
Qed.
Lemma opt_val_pp (texp : option tens) es : opt_values n texp es -> opt_per_planet n texp.
Proof. destruct texp; cbn; [intros []; assumption|auto]. Qed.
End S.

Lemma simple_in_none : forall n N x xs t ts texp es,
  simple_system n x xs -> (forall j, (j < n)%nat -> simple_ok (xs j)) -> is_vector N t ->
  (forall m, (m < N)%nat -> aget t (at_time m) = Fin (ts m)) ->
  opt_values n texp es -> (forall j, (j < n)%nat -> 0 <= es j) ->
  exists l, simple_in_transit (simple_init x) t None texp false = Ok l /\ StronglySorted lt l /\
    forall m, In m l <-> (m < N)%nat /\ exists j, (j < n)%nat /\ exists s, Rabs (s - ts m) <= es j / 2 /\ sz (xs j) s = 1.
Proof.
  intros n N x xs t ts texp es sys ok Ht Hts He Hpos.
  apply (simple_in n N x xs t ts sys Ht Hts None texp (fun m j => exists s, Rabs (s - ts m) <= es j / 2 /\ sz (xs j) s = 1) I (opt_val_pp n texp es He)).
  intros m j Hm Hj. destruct (opt_val n texp es j He Hj) as (e & -> & Ee). rewrite <- Ee. cbn [opt_at_planet option_map].
  apply (simple_mask_none (xs j) (ok j Hj)). rewrite Ee. apply Hpos, Hj.
Qed.

Lemma simple_in_r : forall n N x xs t ts r rv texp es,
  simple_system n x xs -> (forall j, (j < n)%nat -> simple_ok (xs j)) -> is_vector N t ->
  (forall m, (m < N)%nat -> aget t (at_time m) = Fin (ts m)) ->
  planet_values n r rv -> opt_values n texp es -> (forall j, (j < n)%nat -> 0 <= es j) ->
  (forall j, (j < n)%nat -> 0 <= rv j /\ Rabs (dflt 0 (sa_b (xs j))) < 1 + dflt 0 (sa_ror (xs j)) /\
     Rabs (dflt 0 (sa_b (xs j))) * dflt 1 (sa_r_star (xs j)) <> dflt 1 (sa_r_star (xs j)) + rv j) ->
  exists l, simple_in_transit (simple_init x) t (Some r) texp false = Ok l /\ StronglySorted lt l /\
    forall m, In m l <-> (m < N)%nat /\ exists j, (j < n)%nat /\ exists s, Rabs (s - ts m) <= es j / 2 /\
      sdist (xs j) s < dflt 1 (sa_r_star (xs j)) + rv j.
Proof.
  intros n N x xs t ts r rv texp es sys ok Ht Hts Hr He Hpos G.
  apply (simple_in n N x xs t ts sys Ht Hts (Some r) texp (fun m j => exists s, Rabs (s - ts m) <= es j / 2 /\ sdist (xs j) s < dflt 1 (sa_r_star (xs j)) + rv j) (proj1 Hr) (opt_val_pp n texp es He)).
  intros m j Hm Hj. destruct (opt_val n texp es j He Hj) as (e & -> & Ee). rewrite <- Ee. cbn [opt_at_planet option_map]. rewrite (proj2 Hr j Hj).
  destruct (G j Hj) as (G1 & G2 & G3). apply (simple_mask_r (xs j) (ok j Hj)); try assumption. rewrite Ee. apply Hpos, Hj.
Qed.

Lemma simple_agree : forall x s, simple_ok x -> Rabs (dflt 0 (sa_b x)) < 1 + dflt 0 (sa_ror x) -> sa_duration x <= sa_period x ->
  (sdist x s < dflt 1 (sa_r_star x) + dflt 0 (sa_ror x) * dflt 1 (sa_r_star x) <-> sz x s = 1).
Proof. intros x s ok. apply (simple_r_agree x ok s eq_refl). Qed.

Definition ex_simple (b : R) : sargs R :=
  {| sa_period := 10; sa_duration := 1; sa_t0 := Some 2; sa_b := Some b; sa_r_star := None; sa_ror := Some (1 / 10) |}.
Definition ex_simples (bs : nat -> R) : sargs tens :=
  {| sa_period := vector 2 (fun _ => 10); sa_duration := scalar 1; sa_t0 := Some (scalar 2); sa_b := Some (vector 2 bs);
     sa_r_star := None; sa_ror := Some (scalar (1 / 10)) |}.
Lemma ex_simple_ok b : 0 <= b <= 1 -> simple_ok (ex_simple b).
Proof. intro H. constructor; cbn; try lra. rewrite Rabs_pos_eq; lra. Qed.
Lemma simple_example : 
  simple_system 2 (ex_simples (fun j => INR j / 2)) (fun j => ex_simple (INR j / 2)) /\
  (forall j, (j < 2)%nat -> simple_ok (ex_simple (INR j / 2))) /\ is_vector 3 (vector 3 INR) /\
  (forall m, (m < 3)%nat -> aget (vector 3 INR) (at_time m) = Fin (INR m)) /\
  planet_values 2 (scalar (1 / 10)) (fun _ => 1 / 10) /\ opt_values 2 (Some (scalar 1)) (fun _ => 1) /\
  (forall j, (j < 2)%nat -> 0 <= 1 / 10 /\ Rabs (dflt 0 (sa_b (ex_simple (INR j / 2)))) < 1 + dflt 0 (sa_ror (ex_simple (INR j / 2))) /\
     Rabs (dflt 0 (sa_b (ex_simple (INR j / 2)))) * dflt 1 (sa_r_star (ex_simple (INR j / 2))) <> dflt 1 (sa_r_star (ex_simple (INR j / 2))) + 1 / 10).
Proof.
  split.
  { constructor; cbn; try exact I; try apply vector_pp; try apply scalar_pp; [split; [apply vector_pp|left; reflexivity]|].
    intros [|[|j]] Hj; [| |lia]; reflexivity. }
  split; [intros [|[|j]] Hj; [| |lia]; apply ex_simple_ok; cbn; lra|].
  split; [apply vector_is|]. split; [apply vector_at|]. split; [apply scalar_values|]. split; [apply scalar_values|].
  intros [|[|j]] Hj; [| |lia]; cbn; rewrite Rabs_pos_eq by lra; repeat split; lra.
Qed.
