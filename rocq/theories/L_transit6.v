(** * Orbits whose transits in_transit does not see, and examples *)
From Coq Require Import Reals List Bool Arith ZArith Lra Lia Psatz Sorted.
From Verif Require Import Num CoreOps Inst M_units M_kepler M_fin M_tensor Spec_orbit Spec_params Spec_array
  L_real L_orbit L_params3 L_params4 L_fl L_fl2 L_fl3 L_tens L_shape L_transit L_transit2 L_transit3 L_transit4 L_transit5 Ex_orbit Ex_system L_pmotion5 L_pmotion3.
Import ListNotations.
Open Scope R_scope.

Section S.
Variable k : consts.
Hypothesis kok : consts_ok k.
Variable x : kargs R.
Variable o : orbit R.
Hypothesis H : kep_init k x = Ok o.
Hypothesis ph : physical o.
Hypothesis circ : o_ecc o = None.
Variable r : R.
Hypothesis Hr : 0 <= r.
Variable wf : bool -> fl -> fl.
Variable cp : fl -> fl -> fl -> fl -> fl -> fl -> fl -> fl * fl * fl.
Variables (t : fl) (u : R).
Hypothesis Hwf : wf true t = Fin u.

Notation g := ((1 + r / o_r_star o) * (1 + r / o_r_star o) - o_b o * o_b o).

Lemma grazes : Rabs (o_b o) < 1 + r / o_r_star o -> 0 < g.
Proof.
  intro B. assert (0 <= Rabs (o_b o)) by apply Rabs_pos.
  assert (E : o_b o * o_b o = Rabs (o_b o) * Rabs (o_b o)) by (unfold Rabs; destruct (Rcase_abs (o_b o)); ring).
  rewrite E. nra.
Qed.

Lemma mask_none : Rabs (o_b o) < 1 + r / o_r_star o ->
  o_sin_incl o < 0 \/ 0 < o_sin_incl o /\ o_a o * o_sin_incl o < o_r_star o * sqrt g ->
  transit_mask (fin_orbit o) wf cp t (Fin r) None = (false, Fin 0).
Proof.
  intros B C. assert (G := grazes B). unfold transit_mask. rewrite (window_circ_fin o ph circ r cp), (since_fin o ph wf t u Hwf). cbv zeta.
  set (dt := Rmodulo _ _ - _).
  assert (A := ph_a _ ph). assert (R := ph_r_star _ ph). assert (P := ph_period _ ph). assert (Hpi := PI_RGT_0).
  assert (Sg : 0 < sqrt g) by (apply sqrt_lt_R0; exact G).
  f_equal. rewrite (fsqrt_fin g) by lra.
  assert (D : o_a o * o_sin_incl o <> 0) by (destruct C as [C|[C _]]; nra).
  rewrite (fdiv_fin (o_r_star o)) by assumption.
  change (fmul (Fin (o_r_star o / (o_a o * o_sin_incl o))) (Fin (sqrt g))) with (Fin (o_r_star o / (o_a o * o_sin_incl o) * sqrt g)).
  set (y := o_r_star o / (o_a o * o_sin_incl o) * sqrt g).
  destruct (Rle_or_lt (-1) y) as [Y1|Y1]; [destruct (Rle_or_lt y 1) as [Y2|Y2]|].
  2,3: assert (N : farc asin (Fin y) = NaN) by (unfold farc; destruct (Rleb (-1) y) eqn:E1; [destruct (Rleb y 1) eqn:E2|]; try reflexivity;
     apply L_real.Rleb_true in E1; apply L_real.Rleb_true in E2; lra);
     rewrite N, fmul_nan_r, fdiv_nan_l; reflexivity.
  destruct C as [C|[C1 C2]].
  2:{ exfalso. assert (Dp : 0 < o_a o * o_sin_incl o) by nra.
    assert (y * (o_a o * o_sin_incl o) = o_r_star o * sqrt g) by (unfold y; field; split; lra). nra. }
  rewrite fasin_fin by lra.
  change (fmul (Fin (0.5 * o_period o)) (Fin (asin y))) with (Fin (0.5 * o_period o * asin y)). rewrite fdiv_fin by lra.
  assert (Yn : y < 0).
  { unfold y. assert (Dn : o_a o * o_sin_incl o < 0) by nra. assert (/ (o_a o * o_sin_incl o) < 0) by (apply Rinv_lt_0_compat; exact Dn).
    unfold Rdiv. assert (o_r_star o * / (o_a o * o_sin_incl o) < 0) by nra. nra. }
  assert (An : asin y < 0).
  { destruct (Rlt_or_le (asin y) 0); [assumption|]. assert (Ba := asin_bound y). assert (E := sin_asin y ltac:(lra)).
    assert (0 <= sin (asin y)) by (apply sin_ge_0; lra). lra. }
  assert (Hn : 0.5 * o_period o * asin y / PI < 0).
  { unfold Rdiv. assert (0 < / PI) by (apply Rinv_0_lt_compat; lra). assert (0.5 * o_period o * asin y < 0) by nra. nra. }
  set (h := 0.5 * o_period o * asin y / PI) in *. clearbody h dt.
  cbn. apply (f_equal (fun b => (b, Fin 0))). apply andb_false_iff. destruct (Rleb (- h) dt) eqn:E1; [|left; reflexivity]. right.
  apply L_real.Rleb_true in E1. destruct (Rleb dt h) eqn:E2; [|reflexivity]. apply L_real.Rleb_true in E2. lra.
Qed.

Lemma does_transit (q : bool) : Rabs (o_b o) < 1 + r / o_r_star o ->
  (if q then o_sin_incl o < 0 else 0 < o_sin_incl o) ->
  transits k o r (o_t0 o + (if q then o_period o / 2 else 0)).
Proof.
  intros B C. assert (G := grazes B). assert (R := ph_r_star _ ph). assert (P := ph_period _ ph). assert (A := ph_a _ ph).
  apply (transits_circ k kok x o H ph circ r Hr). 
  assert (E : 0 <= (o_r_star o + r) * (o_r_star o + r) - o_b o * o_b o * (o_r_star o * o_r_star o)).
  { replace ((o_r_star o + r) * (o_r_star o + r) - o_b o * o_b o * (o_r_star o * o_r_star o)) with (g * (o_r_star o * o_r_star o)) by (field; lra).
    assert (0 < o_r_star o * o_r_star o) by nra. nra. }
  destruct q.
  - replace (2 * PI * (o_t0 o + o_period o / 2 - o_t0 o) / o_period o) with PI by (field; lra). rewrite cos_PI, sin_PI.
    split; lra.
  - replace (2 * PI * (o_t0 o + 0 - o_t0 o) / o_period o) with 0 by (field; lra). rewrite cos_0, sin_0. split; lra.
Qed.
End S.

Lemma in_transit_blind k n N (x : kargs tens) xs os r rs t ts cp :
  consts_ok k -> system k n x xs os -> planet_values n r rs -> is_vector N t ->
  (forall m, (m < N)%nat -> aget t (at_time m) = Fin (ts m)) ->
  (forall j, (j < n)%nat -> ka_ecc (xs j) = None /\ 0 <= rs j /\ Rabs (o_b (os j)) < 1 + rs j / o_r_star (os j) /\
     (o_sin_incl (os j) < 0 \/ 0 < o_sin_incl (os j) /\ o_a (os j) * o_sin_incl (os j) <
        o_r_star (os j) * sqrt ((1 + rs j / o_r_star (os j)) * (1 + rs j / o_r_star (os j)) - o_b (os j) * o_b (os j)))) ->
  (exists o, kep_init k x = Ok o /\ kep_in_transit o (kep_warp o) (lift_cp cp) t r None false = Ok []) /\
  (forall j, (j < n)%nat -> transits k (os j) (rs j) (o_t0 (os j) + if Rlt_dec (o_sin_incl (os j)) 0 then o_period (os j) / 2 else 0)).
Proof.
  intros kok sys Hr Ht Hts G. split.
  - destruct (kin_system k n N x xs os r rs None (fun _ => 0) t ts cp kok sys Hr (fun _ => eq_refl) Ht Hts) as (o & Ho & Hl).
    exists o. split; [exact Ho|]. rewrite Hl.
    assert (M : forall m j, (j < n)%nat -> the_entry os rs None (fun _ => 0) ts cp m j = (false, Fin 0)).
    { intros m j Hj. destruct (G j Hj) as (G1 & G2 & G3 & G4). unfold the_entry. cbn [te_of option_map].
      assert (Hi := sy_init _ _ _ _ _ sys j Hj).
      eapply (mask_none (os j)); try eassumption; [exact (sy_phys _ _ _ _ _ sys j Hj)|exact (proj2 (kep_circ k _ _ Hi) G1)|].
      exact (kep_warp_fin (os j) true (ts m)). }
    assert (FO : flags_ok n (the_entry os rs None (fun _ => 0) ts cp) = true).
    { unfold flags_ok. apply forallb_forall. intros j Hj. apply in_seq in Hj. rewrite M by lia. cbn. apply L_fl.Reqb_true. reflexivity. }
    rewrite FO. f_equal. destruct (picked n N (the_entry os rs None (fun _ => 0) ts cp)) as [|m l] eqn:E; [reflexivity|]. exfalso.
    assert (I : In m (picked n N (the_entry os rs None (fun _ => 0) ts cp))) by (rewrite E; left; reflexivity).
    apply in_picked in I. destruct I as (_ & j & Hj & F). rewrite M in F by assumption. discriminate F.
  - intros j Hj. destruct (G j Hj) as (G1 & G2 & G3 & G4). assert (Hi := sy_init _ _ _ _ _ sys j Hj).
    destruct (Rlt_dec (o_sin_incl (os j)) 0) as [Hs|Hs].
    + apply (does_transit k kok (xs j) (os j) Hi (sy_phys _ _ _ _ _ sys j Hj) (proj2 (kep_circ k _ _ Hi) G1) (rs j) G2 true G3 Hs).
    + apply (does_transit k kok (xs j) (os j) Hi (sy_phys _ _ _ _ _ sys j Hj) (proj2 (kep_circ k _ _ Hi) G1) (rs j) G2 false G3). cbn. lra.
Qed.

(** texp = None *)
Lemma in_transit_now k n N (x : kargs tens) xs os r rs t ts cp :
  consts_ok k -> system k n x xs os -> planet_values n r rs -> is_vector N t ->
  (forall m, (m < N)%nat -> aget t (at_time m) = Fin (ts m)) ->
  (forall j, (j < n)%nat -> ka_ecc (xs j) = None /\ 0 <= rs j /\ o_r_star (os j) + rs j < o_a (os j) /\ 0 <= o_sin_incl (os j)) ->
  exists o l, kep_init k x = Ok o /\
    kep_in_transit o (kep_warp o) (lift_cp cp) t r None false = Ok l /\ StronglySorted lt l /\
    forall m, In m l <-> (m < N)%nat /\ exists j, (j < n)%nat /\ transits k (os j) (rs j) (ts m).
Proof.
  intros kok sys Hr Ht Hts G.
  destruct (in_transit_circ k n N x xs os r rs None (fun _ => 0) t ts cp kok sys Hr (fun _ => eq_refl) ltac:(intros; lra) Ht Hts G) as (o & l & H1 & H2 & H3 & H4).
  exists o, l. split; [exact H1|]. split; [exact H2|]. split; [exact H3|]. intro m. rewrite H4. split; intros [Hm E]; (split; [exact Hm|]).
  - destruct E as (j & s & Hj & S1 & S2). exists j. split; [exact Hj|]. replace (0 / 2) with 0 in S1 by field. apply Rabs_le_between in S1.
    replace (ts m) with s by lra. exact S2.
  - destruct E as (j & Hj & S2). exists j, (ts m). split; [exact Hj|]. split; [|exact S2]. unfold Rminus. rewrite Rplus_opp_r, Rabs_R0. lra.
Qed.

Lemma vector_is N v : is_vector N (vector N v).
Proof. split; [apply vector_pp|reflexivity]. Qed.
Lemma vector_at N v m : (m < N)%nat -> aget (vector N v) (at_time m) = Fin (v m).
Proof. intro Hm. cbn. destruct (Nat.eqb_spec N 1); [|reflexivity]. replace m with 0%nat by lia. reflexivity. Qed.
Lemma vector_values n v : planet_values n (vector n v) v.
Proof. split; [apply vector_pp|]. intros j Hj. cbn. destruct (Nat.eqb_spec n 1); [|reflexivity]. replace j with 0%nat by lia. reflexivity. Qed.
Lemma scalar_values n v : planet_values n (scalar v) (fun _ => v).
Proof. split; [apply scalar_pp|]. reflexivity. Qed.

(** the two-planet example *)
Lemma transit_example : exists os,
  consts_ok ek /\ system ek 2 (ex_sys_args 2 ex_bs) (fun j => ex_b_args (ex_bs j)) os /\
  planet_values 2 (scalar (1 / 10)) (fun _ => 1 / 10) /\ opt_values 2 (Some (scalar 1)) (fun _ => 1) /\ is_vector 3 (vector 3 INR) /\
  (forall m, (m < 3)%nat -> aget (vector 3 INR) (at_time m) = Fin (INR m)) /\
  (forall j, (j < 2)%nat -> ka_ecc (ex_b_args (ex_bs j)) = None /\ 0 <= 1 / 10 /\ o_r_star (os j) + 1 / 10 < o_a (os j) /\ 0 <= o_sin_incl (os j)) /\
  transits ek (os 0%nat) (1 / 10) (INR 2) /\ ~ transits ek (os 1%nat) (1 / 10) (INR 2).
Proof.
  destruct ex_system as (os & S & F). exists os. split; [exact ek_ok|]. split; [exact S|]. split; [apply scalar_values|].
  split; [apply scalar_values|]. split; [apply vector_is|]. split; [apply vector_at|].
  assert (F0 := F 0%nat ltac:(lia)). assert (F1 := F 1%nat ltac:(lia)).
  destruct F0 as (A1 & A2 & A3 & A4 & A5 & A6 & A7). destruct F1 as (B1 & B2 & B3 & B4 & B5 & B6 & B7). cbn in A2, B2.
  split; [intros [|[|j]] Hj; [| |lia]; cbn; repeat split; lra|].
  assert (I0 := sy_init _ _ _ _ _ S 0%nat ltac:(lia)). assert (P0 := sy_phys _ _ _ _ _ S 0%nat ltac:(lia)).
  assert (I1 := sy_init _ _ _ _ _ S 1%nat ltac:(lia)). assert (P1 := sy_phys _ _ _ _ _ S 1%nat ltac:(lia)).
  split.
  - assert (C := kep_init_facts ek ek_ok _ _ I0 P0).
    assert (D := does_transit ek ek_ok _ _ I0 P0 A1 (1 / 10) ltac:(lra) false). rewrite A4, Rplus_0_r in D.
    replace (INR 2) with 2 by (cbn; lra). apply D; [rewrite A2, A5, Rabs_R0; lra|].
    destruct (Rle_lt_or_eq_dec _ _ A7) as [Hs|Hs]; [exact Hs|]. exfalso.
    assert (Q := of_cosi_b _ _ _ C). rewrite A2, Rmult_0_r, (of_cosi _ _ _ C) in Q.
    assert (Q1 := of_sini _ _ _ C). assert (Q2 := sin2_cos2' (o_incl (os 0%nat))). rewrite Q, <- Q1, <- Hs in Q2. lra.
  - apply (no_transit ek ek_ok _ _ I1 P1 B1 (1 / 10) ltac:(lra)). rewrite B2, B5, Rabs_pos_eq; lra.
Qed.

(** exposure times paired with planets instead of observations *)
Lemma texp_dropped : exists k n (x : kargs tens) xs os (es ts : nat -> R),
  consts_ok k /\ system k n x xs os /\ (forall j, (j < n)%nat -> 0 <= es j) /\
  (forall cp, exists o l, kep_init k x = Ok o /\
     kep_in_transit o (kep_warp o) (lift_cp cp) (vector n ts) (scalar 0) (Some (vector n es)) false = Ok l /\ ~ In 1%nat l) /\
  (1 < n)%nat /\ exists s, Rabs (s - ts 1%nat) <= es 1%nat / 2 /\ transits k (os 0%nat) 0 s.
Proof.
  destruct ex_system as (os & S & F).
  assert (F0 := F 0%nat ltac:(lia)). assert (F1 := F 1%nat ltac:(lia)).
  destruct F0 as (A1 & A2 & A3 & A4 & A5 & A6 & A7). destruct F1 as (B1 & B2 & B3 & B4 & B5 & B6 & B7). cbn in A2, B2.
  assert (I0 := sy_init _ _ _ _ _ S 0%nat ltac:(lia)). assert (P0 := sy_phys _ _ _ _ _ S 0%nat ltac:(lia)).
  assert (I1 := sy_init _ _ _ _ _ S 1%nat ltac:(lia)). assert (P1 := sy_phys _ _ _ _ _ S 1%nat ltac:(lia)).
  exists ek, 2%nat, (ex_sys_args 2 ex_bs), (fun j => ex_b_args (ex_bs j)), os, (fun j => match j with O => 0 | _ => 5 end), (fun _ => 9 / 2).
  split; [exact ek_ok|]. split; [exact S|]. split; [intros [|j] _; lra|]. split; [|split; [lia|]].
  - intro cp. 
    destruct (in_transit_circ ek 2 2 (ex_sys_args 2 ex_bs) (fun j => ex_b_args (ex_bs j)) os (scalar 0) (fun _ => 0)
      (Some (vector 2 (fun j => match j with O => 0 | _ => 5 end))) (fun j => match j with O => 0 | _ => 5 end) (vector 2 (fun _ => 9 / 2)) (fun _ => 9 / 2) cp ek_ok S
      (scalar_values 2 0) (vector_values 2 _) ltac:(intros [|j] _; lra) (vector_is 2 _) (vector_at 2 _)) as (o & l & H1 & H2 & H3 & H4).
    { intros [|[|j]] Hj; [| |lia]; cbn; repeat split; lra. }
    exists o, l. split; [exact H1|]. split; [exact H2|]. rewrite H4. intros (_ & j & s & Hj & S1 & S2).
    destruct j as [|[|j]]; [| |lia].
    + replace (0 / 2) with 0 in S1 by field. apply Rabs_le_between in S1. replace s with (9 / 2) in S2 by lra.
      apply (transits_circ ek ek_ok _ _ I0 P0 A1 0 ltac:(lra)) in S2. rewrite A3, A4 in S2.
      replace (2 * PI * (9 / 2 - 2) / 10) with (PI / 2) in S2 by field. rewrite cos_PI2 in S2. lra.
    + apply (no_transit ek ek_ok _ _ I1 P1 B1 0 ltac:(lra) s) in S2; [exact S2|]. rewrite B2, B5, Rabs_pos_eq; lra.
  - exists 2. split; [apply Rabs_le; lra|].
    assert (C := kep_init_facts ek ek_ok _ _ I0 P0).
    assert (D := does_transit ek ek_ok _ _ I0 P0 A1 0 ltac:(lra) false). rewrite A4, Rplus_0_r in D.
    apply D; [rewrite A2, A5, Rabs_R0; lra|].
    destruct (Rle_lt_or_eq_dec _ _ A7) as [Hs|Hs]; [exact Hs|]. exfalso.
    assert (Q := of_cosi_b _ _ _ C). rewrite A2, Rmult_0_r, (of_cosi _ _ _ C) in Q.
    assert (Q1 := of_sini _ _ _ C). assert (Q2 := sin2_cos2' (o_incl (os 0%nat))). rewrite Q, <- Q1, <- Hs in Q2. lra.
Qed.

(** eccentric keyword arguments: the transits of the ecc = 0 orbit *)
Lemma nearest_int (y P : R) : 0 < P -> exists q : Z, - (P / 2) <= y - IZR q * P <= P / 2.
Proof.
  intro HP. destruct (archimed (y / P - 1 / 2)) as [A1 A2]. exists (up (y / P - 1 / 2)).
  set (z := IZR (up (y / P - 1 / 2))) in *. clearbody z. assert (E : y = y / P * P) by (field; lra).
  set (w := y / P) in *. clearbody w. subst y. assert (- (P / 2) <= (w - z) * P <= P / 2) by nra. lra.
Qed.

Lemma circ_interval k (kok : consts_ok k) x o (H : kep_init k x = Ok o) (ph : physical o) (circ : o_ecc o = None) r :
  0 <= r -> o_r_star o + r < o_a o -> 0 <= o_sin_incl o -> Rabs (o_b o) < 1 + r / o_r_star o ->
  transit_interval k o r (hdur o r) (hdur o r) /\ hdur o r < o_period o / 4.
Proof.
  intros Hr Ha Hi B. assert (G := grazes o r B). assert (P := ph_period _ ph).
  assert (Hb := hdur_bound k kok x o H ph circ r Hr Ha Hi (Rlt_le _ _ G)). split; [|apply Hb].
  split; [apply Hb|]. split; [apply Hb|]. intro s. destruct (nearest_int (s - o_t0 o) (o_period o) P) as (q & Q).
  assert (T := fun m d => transits_hdur k kok x o H ph circ r Hr Ha Hi m d (Rlt_le _ _ G)). split.
  - intro S. exists q. set (d := s - o_t0 o - IZR q * o_period o) in *.
    replace s with (o_t0 o + IZR q * o_period o + d) in S by (unfold d; ring). apply T in S; [|exact Q].
    apply Rabs_le_between in S. unfold d in *. lra.
  - intros (m & M). set (d := s - o_t0 o - IZR m * o_period o).
    replace s with (o_t0 o + IZR m * o_period o + d) by (unfold d; ring). apply T; unfold d; [lra|]. apply Rabs_le. lra.
Qed.

Lemma ex_b_ecc : exists o, kep_init ek (with_ecc (ex_b_args 0) 0 1) = Ok o /\ physical o /\
  o_period o = 10 /\ o_t0 o = 2 /\ o_r_star o = 1 /\ o_ecc o <> None.
Proof.
  assert (A := ex_a_big). eexists. split; [reflexivity|]. set (A0 := Rpowr _ _) in *.
  split; [|cbn; fold A0; repeat split; simR; try lra; try discriminate].
  - constructor; cbn; fold A0; simR; try lra; try (intros d Hd; injection Hd as <-; cbn; lra).
    intros d Hd. injection Hd as <-. cbn. generalize (sin2_cos2' 1). lra.
Qed.

Lemma ecc_example : exists os (cp : fl -> fl -> fl -> fl -> fl -> fl -> fl -> fl * fl * fl) al be,
  consts_ok ek /\ system ek 1 (ex_esys_args 1 (fun _ => 0)) (fun _ => with_ecc (ex_b_args 0) 0 1) os /\
  planet_values 1 (scalar (1 / 10)) (fun _ => 1 / 10) /\ opt_values 1 (Some (scalar 1)) (fun _ => 1) /\
  (forall j, (j < 1)%nat -> ka_ecc (with_ecc (ex_b_args 0) 0 1) <> None /\ transit_interval ek (os j) (1 / 10) al be /\
     solved cp (os j) (1 / 10) al be /\ al + 1 / 2 < o_period (os j) / 2 /\ be + 1 / 2 < o_period (os j) / 2).
Proof.
  destruct (ex_b 0 ltac:(lra)) as (o & A1 & A2 & A3 & A4 & A5 & A6 & A7 & A8 & A9 & A10 & A11).
  destruct ex_b_ecc as (o' & B1 & B2 & B3 & B4 & B5 & B6).
  destruct (circ_interval ek ek_ok _ _ A1 A2 A5 (1 / 10) ltac:(lra) ltac:(lra) A11 ltac:(rewrite A6, A9, Rabs_R0; lra)) as [TI Hh].
  assert (Sn1 : sin 1 <> -1). { assert (0 < sin 1) by (apply sin_gt_0; generalize PI2_1; lra). lra. }
  destruct (ecc0_motion ek _ _ 1 ek_ok A1 A2 Sn1 eq_refl eq_refl eq_refl) as (o2 & C1 & C2 & C3).
  rewrite B1 in C1. apply Ok_inj in C1. subst o2.
  set (h := hdur o (1 / 10)) in *. rewrite A7 in Hh.
  exists (fun _ => o'), (fun _ _ _ _ _ _ _ => (Fin (2 * PI / o_period o' * (o_t0 o' - h - o_tper o') + IZR 0 * (2 * PI)),
     Fin (2 * PI / o_period o' * (o_t0 o' + h - o_tper o') + IZR 0 * (2 * PI)), Fin 0)), h, h.
  split; [exact ek_ok|]. split; [|split; [apply scalar_values|split; [apply scalar_values|]]].
  - constructor.
    + lia.
    + constructor; cbn; try exact I; try reflexivity; first [apply vector_pp|apply scalar_pp|left; reflexivity].
    + intros [|j] Hj; [|lia]; reflexivity.
    + intros; assumption.
    + intros; assumption.
    + intros; right; reflexivity.
  - intros j Hj. split; [discriminate|]. split; [|split; [|rewrite B3; lra]].
    + destruct TI as (T1 & T2 & T3). split; [exact T1|]. split; [exact T2|]. intro s.
      rewrite B3, B4. rewrite A7, A8 in T3. rewrite <- T3. unfold transits, pos.
      rewrite (proj1 (proj2 (proj2 (C3 s)))), B5, A9. reflexivity.
    + exists 0%Z, 0%Z. unfold solver_answer. destruct (o_ecc o') as [d|]; [reflexivity|contradiction].
Qed.
