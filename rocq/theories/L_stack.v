(** * Consecutive exposures (C97) *)
From Coq Require Import Reals List Bool Arith ZArith Lra Lia Psatz.
From Verif Require Import Num CoreOps Inst CoreFlux M_units M_kepler M_fin M_tensor M_simple M_ttv M_limbdark Spec_orbit Spec_params Spec_array Spec_light Spec_simple Spec_ttv Spec_delay Spec_stack
  L_real L_light4 L_light5 L_light6 L_light7 L_depth3 L_ttv3 L_ttv4 L_ttv5 L_ttv6 L_ttv7 L_ttv8 L_delay2.
Import ListNotations.
Local Notation length := List.length.
Open Scope R_scope.

(** one panel of the rule of some order *)
Definition panel (order : Z) (f : R -> R) (a h : R) : R :=
  if Z.eqb order 0 then f (a + h / 2) else if Z.eqb order 1 then (f a + f (a + h)) / 2 else (f a + 4 * f (a + h / 2) + f (a + h)) / 6.
Definition panels_of (order osam : Z) : nat :=
  Z.to_nat (if Z.eqb order 0 then nodes_of osam else if Z.eqb order 1 then nodes_of osam - 1 else (nodes_of osam - 1) / 2).
Lemma rule_panels osam order x w f t e : stencil osam order = Ok (x, w) -> order = 0%Z \/ (2 <= osam)%Z ->
  let m := panels_of order osam in
  (0 < m)%nat /\ node_mean x w f t e = sm (fun p => panel order f (t - e / 2 + INR p * (e / INR m)) (e / INR m)) m / INR m.
Proof.
  intros H O m. destruct (stencil_rule _ _ _ _ H) as (K & X & c & EK & E & PK & _ & _ & _ & _ & Ca).
  assert (MM := rule_mean X c K f t e). rewrite <- E in MM. cbn [fst snd] in MM. rewrite MM. clear MM E.
  assert (EK' : Z.of_nat K = nodes_of osam).
  { unfold odd_number in EK. destruct (_ <? 0)%Z eqn:Q; [discriminate EK|]. apply Z.ltb_ge in Q. injection EK as <-. rewrite Z2Nat.id by exact Q. reflexivity. }
  assert (K1 := proj2 (K_one _ _ EK)). destruct Ca as [(-> & -> & ->)|[(-> & -> & ->)|(-> & -> & ->)]].
  - assert (Em : m = K) by (unfold m, panels_of; cbn [Z.eqb]; rewrite <- EK'; apply Nat2Z.id). rewrite Em. split; [exact PK|].
    assert (P : 0 < INR K) by (apply lt_0_INR; exact PK). unfold ones. rewrite sm_const, Rmult_1_r. f_equal. apply sm_ext. intros i Hi. rewrite mids_val. unfold panel. cbn [Z.eqb]. rewrite Rmult_1_l. f_equal. field. lra.
  - assert (N1 : K <> 1%nat) by (intro Q; apply K1 in Q; destruct O as [O|O]; [discriminate O|lia]).
    destruct K as [|M]; [lia|]. assert (HM : (0 < M)%nat) by lia.
    assert (Em : m = M) by (unfold m, panels_of; cbn [Z.eqb Pos.eqb]; rewrite <- EK'; lia). rewrite Em. split; [exact HM|].
    rewrite (trap_sum (fun i => f (t + e * ends (S M) i)) M HM), (trap_total M HM). assert (P : 0 < INR M) by (apply lt_0_INR; exact HM).
    rewrite (sm_ext (fun p => panel 1 f (t - e / 2 + INR p * (e / INR M)) (e / INR M)) (fun p => / 2 * (f (t + e * ends (S M) p) + f (t + e * ends (S M) (S p))))).
    + rewrite sm_scal. field. lra.
    + intros i Hi. rewrite !(ends_val M) by exact HM. rewrite S_INR. unfold panel. cbn [Z.eqb Pos.eqb].
      replace (t + e * (-1 / 2 + INR i / INR M)) with (t - e / 2 + INR i * (e / INR M)) by (field; lra).
      replace (t + e * (-1 / 2 + (INR i + 1) / INR M)) with (t - e / 2 + INR i * (e / INR M) + e / INR M) by (field; lra). unfold Rdiv at 1. ring.
  - assert (N1 : K <> 1%nat) by (intro Q; apply K1 in Q; destruct O as [O|O]; [discriminate O|lia]).
    destruct (odd_two K (proj1 (odd_number_ok _ _ EK)) N1) as (M & HM & ->).
    assert (Em : m = M). { unfold m, panels_of. cbn [Z.eqb Pos.eqb]. rewrite <- EK'. replace (Z.of_nat (2 * M + 1) - 1)%Z with (Z.of_nat M * 2)%Z by lia. rewrite Z.div_mul by lia. apply Nat2Z.id. }
    rewrite Em. split; [exact HM|]. rewrite (simp_sum (fun i => f (t + e * ends (2 * M + 1) i)) M HM), (simp_total M HM). assert (P : 0 < INR M) by (apply lt_0_INR; exact HM).
    rewrite (sm_ext (fun p => panel 2 f (t - e / 2 + INR p * (e / INR M)) (e / INR M))
      (fun p => / 6 * (f (t + e * ends (2 * M + 1) (2 * p)) + 4 * f (t + e * ends (2 * M + 1) (2 * p + 1)) + f (t + e * ends (2 * M + 1) (2 * p + 2))))).
    + rewrite sm_scal. field. lra.
    + intros i Hi. assert (EV : forall q, t + e * ends (2 * M + 1) q = t - e / 2 + INR q * (e / INR M / 2)).
      { intro q. rewrite Nat.add_1_r, (ends_val (2 * M)) by lia. rewrite mult_INR. cbn [INR]. field. lra. }
      rewrite !EV, !plus_INR, !mult_INR. cbn [INR]. unfold panel. cbn [Z.eqb Pos.eqb].
      replace ((1 + 1) * INR i * (e / INR M / 2)) with (INR i * (e / INR M)) by (field; lra).
      replace (((1 + 1) * INR i + 1) * (e / INR M / 2)) with (INR i * (e / INR M) + e / INR M / 2) by (field; lra).
      replace (((1 + 1) * INR i + (1 + 1)) * (e / INR M / 2)) with (INR i * (e / INR M) + e / INR M) by (field; lra).
      rewrite <- !Rplus_assoc. unfold Rdiv at 1. ring.
Qed.
Lemma sm_nest (g : nat -> R) M m : sm g (M * m) = sm (fun i => sm (fun p => g (i * m + p)%nat) m) M.
Proof.
  induction M as [|M IH]; [reflexivity|]. rewrite sm_S, <- IH. replace (S M * m)%nat with (M * m + m)%nat by lia. generalize (M * m)%nat as b. intro b.
  clear IH. induction m as [|m IH]; [rewrite Nat.add_0_r, sm_0; lra|]. rewrite Nat.add_succ_r, !sm_S, IH. lra.
Qed.
Lemma panels_refine order M osam osam' : (order = 0 \/ order = 1 \/ order = 2)%Z -> (0 <= osam)%Z -> refines order M osam osam' -> panels_of order osam' = (M * panels_of order osam)%nat.
Proof.
  intros O L H. unfold refines, panels_of in *. assert (B := Z.mod_pos_bound osam 2 ltac:(lia)). assert (1 <= nodes_of osam)%Z.
  { unfold nodes_of. assert (D := Z.div_mod osam 2 ltac:(lia)). lia. }
  destruct O as [->|[->| ->]]; cbn [Z.eqb Pos.eqb] in *; rewrite H.
  - rewrite Z2Nat.inj_mul by lia. rewrite Nat2Z.id. reflexivity.
  - rewrite Z2Nat.inj_mul by lia. rewrite Nat2Z.id. reflexivity.
  - assert (Ev : exists q, (nodes_of osam - 1 = 2 * q /\ 0 <= q)%Z).
    { exists (osam / 2)%Z. unfold nodes_of. assert (D := Z.div_mod osam 2 ltac:(lia)). split; [lia|]. apply Z.div_pos; lia. }
    destruct Ev as (q & -> & Hq). replace (Z.of_nat M * (2 * q))%Z with (Z.of_nat M * q * 2)%Z by ring. rewrite (Z.mul_comm 2 q), !Z.div_mul by lia.
    rewrite Z2Nat.inj_mul by lia. rewrite Nat2Z.id. reflexivity.
Qed.
Lemma refine_centred order M osam osam' : (0 < M)%nat -> (order = 0 /\ 0 <= osam \/ (order = 1 \/ order = 2) /\ 2 <= osam)%Z -> refines order M osam osam' ->
  (0 <= osam')%Z /\ (order = 0 \/ 2 <= osam')%Z.
Proof.
  intros HM O H. unfold refines in H. assert (N : forall z, (nodes_of z = z \/ nodes_of z = z + 1)%Z /\ (0 <= z -> 1 <= nodes_of z)%Z /\ (2 <= z -> 3 <= nodes_of z)%Z).
  { intro z. unfold nodes_of. assert (B := Z.mod_pos_bound z 2 ltac:(lia)). assert (D := Z.div_mod z 2 ltac:(lia)). lia. }
  destruct (N osam) as (_ & N1 & N2). destruct (N osam') as (N3 & _ & _). destruct O as [[-> O]|[[->| ->] O]]; cbn [Z.eqb Pos.eqb] in H; nia.
Qed.
Lemma rule_stack order M osam osam' x w x' w' f t e : (0 < M)%nat -> stencil osam order = Ok (x, w) -> stencil osam' order = Ok (x', w') ->
  (order = 0 /\ 0 <= osam \/ (order = 1 \/ order = 2) /\ 2 <= osam)%Z -> refines order M osam osam' ->
  node_mean x' w' f t e = mean_of M (fun i => node_mean x w f (t - e / 2 + (INR i + 1 / 2) * (e / INR M)) (e / INR M)).
Proof.
  intros HM H H' O Rf. destruct (refine_centred order M osam osam' HM O Rf) as [_ O'].
  assert (O3 : (order = 0 \/ order = 1 \/ order = 2)%Z) by tauto. assert (O4 : (0 <= osam)%Z) by lia.
  destruct (rule_panels osam' order x' w' f t e H' O') as [m0 E]. rewrite E. clear E. rewrite (panels_refine order M osam osam' O3 O4 Rf) in *.
  set (m := panels_of order osam) in *. assert (mp : (0 < m)%nat) by nia. assert (P1 : 0 < INR m) by (apply lt_0_INR; exact mp). assert (P2 : 0 < INR M) by (apply lt_0_INR; exact HM).
  rewrite sm_nest. unfold mean_of. change (fold_right Rplus 0 (map ?g (seq 0 M))) with (sm g M).
  rewrite (sm_ext (fun i => node_mean x w f (t - e / 2 + (INR i + 1 / 2) * (e / INR M)) (e / INR M))
    (fun i => / INR m * sm (fun p => panel order f (t - e / 2 + INR (i * m + p) * (e / INR (M * m))) (e / INR (M * m))) m)).
  - rewrite sm_scal, mult_INR. field. split; lra.
  - intros i Hi. destruct (rule_panels osam order x w f (t - e / 2 + (INR i + 1 / 2) * (e / INR M)) (e / INR M) H ltac:(tauto)) as [_ E]. rewrite E. fold m.
    unfold Rdiv at 1. rewrite Rmult_comm. f_equal. apply sm_ext. intros p Hp. rewrite plus_INR, !mult_INR. f_equal; field; split; lra.
Qed.
Lemma mean_between x w f t e lo hi : List.Forall (fun v => 0 < v) w -> length x = length w -> fold_right Rplus 0 w = 1 ->
  List.Forall (fun v => -1 / 2 <= v <= 1 / 2) x -> 0 <= e -> (forall s, Rabs (s - t) <= e / 2 -> lo <= f s <= hi) -> lo <= node_mean x w f t e <= hi.
Proof.
  intros W L S X He H. enough (G : fold_right Rplus 0 w * lo <= node_mean x w f t e <= fold_right Rplus 0 w * hi) by (rewrite S in G; lra).
  clear S. unfold node_mean. revert w W L. induction X as [|a x Ha X IH]; intros [|b w] W L; try discriminate L; cbn; [lra|].
  apply Forall_cons_iff in W. destruct W as [Wb W]. assert (G := IH w W ltac:(cbn in L; lia)).
  assert (B : lo <= f (t + e * a) <= hi). { apply H. replace (t + e * a - t) with (e * a) by ring. apply Rabs_le. nra. }
  nra.
Qed.
Lemma stack_any u1 u2 A ld n P rst r rs : disk_flux u1 u2 <> 0 -> answers A ld n P -> planet_numbers n (oa_r_star A) rst -> (forall j, (j < n)%nat -> 0 < rst j) -> elements n r rs ->
  let curve t texp osam order := get_light_curve (ld_init (Fin u1) (Fin u2)) (Some A) (Some r) (Some t) texp osam order (Some false) ld in
  exposures_average n curve /\ exposures_stack n curve.
Proof.
  intros Hd HA Hs Hp Hr curve. split.
  - exists (fun j s => flux_at u1 u2 (P j s) (rs j) (rst j)). split.
    + intros N t ts Ht Hts. destruct (curve_of u1 u2 A ld n P rst r rs N t ts None (fun _ => 0) 7 0 Hd HA Hs Hp Hr Ht Hts (fun _ => eq_refl) ltac:(intro Q; contradiction Q; reflexivity)) as (X & f & EX & [TX TX'] & E).
      exists X. split; [exact EX|]. split; [exact TX|]. intros m j Hm Hj. rewrite TX' by assumption. rewrite E. reflexivity.
    + intros N t ts e es osam order Ht Hts He He0 Ho Hor.
      destruct (curve_of u1 u2 A ld n P rst r rs N t ts (Some e) es osam order Hd HA Hs Hp Hr Ht Hts He (fun _ => stencil_exists _ _ Ho Hor)) as (X & f & EX & TX & (x & w & St & E)).
      exists X, f. split; [exact EX|]. split; [exact TX|]. intros m j lo hi Hm Hj B. rewrite E. destruct (quadrature _ _ _ _ St) as (Q1 & _ & _ & Q2 & Q3 & Q4 & _).
      apply mean_between; try assumption. apply He0. exact Hm.
  - intros N M t ts e es t' ts' e' es' osam osam' order HM Ht Hts He Ht' Hts' He' D O Rf.
    destruct (refine_centred order M osam osam' HM O Rf) as [O1 _]. assert (O3 : (order = 0 \/ order = 1 \/ order = 2)%Z) by tauto. assert (O4 : (0 <= osam)%Z) by lia.
    destruct (curve_of u1 u2 A ld n P rst r rs N t ts (Some e) es osam' order Hd HA Hs Hp Hr Ht Hts He (fun _ => stencil_exists _ _ O1 O3)) as (X & f & EX & TX & (x & w & St & E)).
    destruct (curve_of u1 u2 A ld n P rst r rs (N * M) t' ts' (Some e') es' osam order Hd HA Hs Hp Hr Ht' Hts' He' (fun _ => stencil_exists _ _ O4 O3)) as (X' & f' & EX' & TX' & (x' & w' & St' & E')).
    exists X, f, X', f'. split; [exact EX|]. split; [exact TX|]. split; [exact EX'|]. split; [exact TX'|]. intros m j Hm Hj. rewrite E.
    rewrite (rule_stack order M osam osam' x' w' x w _ (ts m) (es m) HM St' St O Rf). unfold mean_of. f_equal. f_equal. apply map_ext_in. intros i Hi. apply in_seq in Hi.
    rewrite E'. destruct (D m i Hm ltac:(lia)) as [-> ->]. reflexivity.
Qed.
Lemma kepler_stack : forall u1 u2 k n (x : kargs tens) xs os o cp r rs ld, disk_flux u1 u2 <> 0 -> consts_ok k -> system k n x xs os -> kep_init k x = Ok o ->
  elements n r rs -> ld = false \/ (forall j, (j < n)%nat -> slow k (os j)) ->
  let curve t texp osam order := get_light_curve (ld_init (Fin u1) (Fin u2)) (Some (kep_api k cp o)) (Some r) (Some t) texp osam order (Some false) ld in
  exposures_average n curve /\ exposures_stack n curve.
Proof.
  intros u1 u2 k n x xs os o cp r rs ld Hd kok sys Ho Hr Hl. destruct (kepler_answers k n x xs os o cp kok sys Ho) as [HA Hs].
  assert (Hp : forall j, (j < n)%nat -> 0 < o_r_star (os j)) by (intros j Hj; apply (ph_r_star _ (sy_phys _ _ _ _ _ sys j Hj))).
  destruct ld; [destruct Hl as [Hl|Hl]; [discriminate Hl|]|].
  - assert (HD := delay_answers k n x xs os o cp kok sys Ho Hl). exact (stack_any u1 u2 _ true n _ _ r rs Hd HD Hs Hp Hr).
  - exact (stack_any u1 u2 _ false n _ _ r rs Hd HA Hs Hp Hr).
Qed.
Lemma ttv_stack : forall u1 u2 k n o os tts cp r rs, disk_flux u1 u2 <> 0 -> consts_ok k -> ttv_system k n o os tts -> elements n r rs ->
  let curve t texp osam order := get_light_curve (ld_init (Fin u1) (Fin u2)) (Some (ttv_api k cp o)) (Some r) (Some t) texp osam order (Some false) false in
  exposures_average n curve /\ exposures_stack n curve.
Proof.
  intros u1 u2 k n o os tts cp r rs Hd kok sys Hr. destruct (near_exists k n o os tts sys) as (near & Hn). destruct (ttv_answers k n o os tts near kok sys Hn cp) as [HA Hs].
  destruct (under k n o os tts sys) as (x & xs & Hx & Sy).
  assert (Hp : forall j, (j < n)%nat -> 0 < o_r_star (os j)) by (intros j Hj; apply (ph_r_star _ (sy_phys _ _ _ _ _ Sy j Hj))).
  exact (stack_any u1 u2 _ false n _ _ r rs Hd HA Hs Hp Hr).
Qed.
Lemma simple_stack : forall u1 u2 n x xs r rs, disk_flux u1 u2 <> 0 -> simple_system n x xs -> (forall j, (j < n)%nat -> simple_ok (xs j)) -> elements n r rs ->
  let curve t texp osam order := get_light_curve (ld_init (Fin u1) (Fin u2)) (Some (simple_api (simple_init x))) (Some r) (Some t) texp osam order (Some false) false in
  exposures_average n curve /\ exposures_stack n curve.
Proof.
  intros u1 u2 n x xs r rs Hd sys ok Hr. destruct (simple_answers n x xs sys ok) as [HA Hs].
  exact (stack_any u1 u2 _ false n _ _ r rs Hd HA Hs (fun j Hj => so_r_star _ (ok j Hj)) Hr).
Qed.
(** no factor puts the nodes of an even number of exposures together with order 0 *)
Lemma even_stack : forall M osam osam', Nat.even M = true -> ~ refines 0 M osam osam'.
Proof.
  intros M osam osam' E H. unfold refines, nodes_of in H. cbn [Z.eqb] in H. apply Nat.even_spec in E. destruct E as (q & ->).
  assert (B := Z.mod_pos_bound osam' 2 ltac:(lia)). assert (D := Z.div_mod osam' 2 ltac:(lia)).
  replace (Z.of_nat (2 * q)) with (2 * Z.of_nat q)%Z in H by lia. nia.
Qed.
Lemma stack_example : refines 0 3 7 21 /\ refines 1 4 7 25 /\ refines 2 4 7 25 /\ refines 2 2 2 5 /\
  divided 1 3 (fun _ => 10) (fun _ => 6) (fun i => 8 + 2 * INR i) (fun _ => 2).
Proof.
  repeat (split; [reflexivity|]). intros m i Hm Hi. assert (m = 0%nat) as -> by lia. rewrite Nat.mul_0_l, Nat.add_0_l. cbn [INR]. split; field.
Qed.
