(** * The quadrature of the exposure time *)
From Coq Require Import Reals List Bool Arith ZArith Lra Lia Psatz.
From Coquelicot Require Import Coquelicot.
From Verif Require Import Num CoreOps Inst M_units M_kepler M_limbdark Spec_light.
Import ListNotations.
Local Notation length := List.length.
Open Scope R_scope.

Definition sm (f : nat -> R) (n : nat) : R := fold_right Rplus 0 (map f (seq 0 n)).
Lemma fr_app l l' : fold_right Rplus 0 (l ++ l') = fold_right Rplus 0 l + fold_right Rplus 0 l'.
Proof. induction l as [|a l IH]; cbn; [lra|]. rewrite IH. lra. Qed.
Lemma sm_S f n : sm f (S n) = sm f n + f n.
Proof. unfold sm. rewrite seq_S, map_app, fr_app. cbn. lra. Qed.
Lemma sm_0 f : sm f 0 = 0. Proof. reflexivity. Qed.
Lemma sm_ext f g n : (forall i, (i < n)%nat -> f i = g i) -> sm f n = sm g n.
Proof. induction n as [|n IH]; intro H; [reflexivity|]. rewrite !sm_S, IH, H; [reflexivity|lia|]. intros i Hi. apply H. lia. Qed.
Lemma sm_plus f g n : sm (fun i => f i + g i) n = sm f n + sm g n.
Proof. induction n as [|n IH]; [rewrite !sm_0; lra|]. rewrite !sm_S, IH. lra. Qed.
Lemma sm_scal c f n : sm (fun i => c * f i) n = c * sm f n.
Proof. induction n as [|n IH]; [rewrite !sm_0; lra|]. rewrite !sm_S, IH. lra. Qed.
Lemma sm_const c n : sm (fun _ => c) n = INR n * c.
Proof. induction n as [|n IH]; [rewrite sm_0; cbn; lra|]. rewrite sm_S, IH, S_INR. lra. Qed.
Lemma sm_pre f n : sm f (S n) = f O + sm (fun i => f (S i)) n.
Proof. unfold sm. cbn [seq map fold_right]. rewrite <- seq_shift, map_map. reflexivity. Qed.
Lemma sm_rev f n : sm (fun i => f (n - 1 - i)%nat) n = sm f n.
Proof.
  revert f. induction n as [|n IH]; intro f; [reflexivity|]. rewrite sm_pre, sm_S. rewrite <- (IH f). replace (S n - 1 - 0)%nat with n by lia. rewrite Rplus_comm. f_equal.
  apply sm_ext. intros i Hi. f_equal. lia.
Qed.
Lemma sm_pos f n : (0 < n)%nat -> (forall i, (i < n)%nat -> 0 < f i) -> 0 < sm f n.
Proof.
  induction n as [|n IH]; intros Hn H; [lia|]. rewrite sm_S. destruct n as [|n]; [rewrite sm_0; specialize (H O ltac:(lia)); lra|].
  assert (0 < sm f (S n)) by (apply IH; [lia|intros; apply H; lia]). specialize (H (S n) ltac:(lia)). lra.
Qed.

(** nodes X 0 .. X (K-1), weights c i / sum c *)
Definition rule (X c : nat -> R) (K : nat) : list R * list R :=
  (map X (seq 0 K), map (fun i => c i / sm c K) (seq 0 K)).
Lemma combine_maps {A B C} (f : A -> B) (g : A -> C) l : combine (map f l) (map g l) = map (fun a => (f a, g a)) l.
Proof. induction l as [|a l IH]; cbn; [reflexivity|]. rewrite IH. reflexivity. Qed.
Lemma rule_mean X c K f t e : node_mean (fst (rule X c K)) (snd (rule X c K)) f t e = sm (fun i => c i * f (t + e * X i)) K / sm c K.
Proof.
  unfold rule, node_mean. cbn [fst snd]. rewrite combine_maps, map_map. cbn [fst snd].
  change (sm (fun i => c i / sm c K * f (t + e * X i)) K = sm (fun i => c i * f (t + e * X i)) K / sm c K).
  rewrite (sm_ext _ (fun i => / sm c K * (c i * f (t + e * X i)))); [rewrite sm_scal; unfold Rdiv; ring|]. intros i _. unfold Rdiv. ring.
Qed.

Definition ones (i : nat) : R := 1.
Definition trap (K i : nat) : R := if Nat.leb 1 i && Nat.ltb i (K - 1) then 2 else 1.
Definition simp (K i : nat) : R := if Nat.leb 1 i && Nat.ltb i (K - 1) then (if Nat.odd i then 4 else 2) else 1.
Definition mids (K i : nat) : R := -0.5 + (2 * INR i + 1) / (2 * INR K).
Definition ends (K i : nat) : R := if Nat.eqb K 1 then -0.5 else -0.5 + INR i / INR (K - 1).

Lemma filter_odds K : forall K', (K' <= K)%nat -> filter (fun i => Nat.odd i && (i <? 2 * K + 1 - 1)%nat) (seq 0 (2 * K')) = map (fun q => (2 * q + 1)%nat) (seq 0 K').
Proof.
  induction K' as [|K' IH]; intro HK; [reflexivity|]. replace (2 * S K')%nat with (2 * K' + 2)%nat by lia. rewrite seq_app, filter_app, IH by lia. rewrite (seq_S K' 0), map_app. f_equal. cbn [seq filter map].
  replace (Nat.odd (0 + 2 * K')) with false. 2:{ rewrite Nat.add_0_l, Nat.odd_mul. reflexivity. }
  replace (Nat.odd (S (0 + 2 * K'))) with true. 2:{ rewrite Nat.add_0_l, Nat.odd_succ, Nat.even_mul. reflexivity. }
  cbn [andb]. destruct (Nat.ltb_spec (S (0 + 2 * K')) (2 * K + 1 - 1)) as [H|H]; [|lia]. f_equal. lia.
Qed.
Lemma nth_linspace a b n i : (i < n)%nat -> n <> 1%nat -> nth i (linspace a b n) 0 = a + INR i * ((b - a) / INR (n - 1)).
Proof.
  intros H N1. unfold linspace. destruct (Nat.eqb_spec n 1); [contradiction|].
  rewrite (nth_indep _ 0 (a + INR O * ((b - a) / INR (n - 1)))) by (rewrite map_length, seq_length; exact H).
  rewrite (map_nth (fun i => a + INR i * ((b - a) / INR (n - 1)))), seq_nth by exact H. reflexivity.
Qed.
Lemma mids_ok K : (0 < K)%nat -> inner2 (linspace (-0.5) 0.5 (2 * K + 1)) = map (mids K) (seq 0 K).
Proof.
  intro HK. unfold inner2. assert (L1 : length (linspace (-0.5) 0.5 (2 * K + 1)) = (2 * K + 1)%nat) by (unfold linspace; rewrite map_length, seq_length; reflexivity). rewrite L1.
  replace (seq 0 (2 * K + 1)) with (seq 0 (2 * K) ++ [(2 * K)%nat]) by (rewrite Nat.add_1_r, seq_S; reflexivity).
  rewrite filter_app, (filter_odds K K (le_n K)). cbn [filter Nat.add]. rewrite (proj2 (Nat.ltb_ge (2 * K) (2 * K + 1 - 1))) by lia. rewrite andb_false_r, app_nil_r, map_map.
  apply map_ext_in. intros q Hq. apply in_seq in Hq. rewrite nth_linspace by lia. unfold mids. replace (2 * K + 1 - 1)%nat with (2 * K)%nat by lia. rewrite plus_INR, !mult_INR. cbn [INR].
  assert (0 < INR K) by (apply lt_0_INR; lia). replace (0.5 - -0.5) with 1 by lra. f_equal. field. lra.
Qed.
Lemma ends_ok K : linspace (-0.5) 0.5 K = map (ends K) (seq 0 K).
Proof.
  unfold linspace. apply map_ext. intro i. unfold ends. destruct (Nat.eqb_spec K 1); [reflexivity|]. replace (0.5 - -0.5) with 1 by lra. unfold Rdiv. ring.
Qed.
Lemma normalised_ok c K : normalised (map c (seq 0 K)) = snd (rule (fun _ => 0) c K).
Proof. unfold normalised, rule, sm. cbn [snd]. rewrite map_map. reflexivity. Qed.
Lemma repeat_ones K : repeat 1 K = map ones (seq 0 K).
Proof. unfold ones. generalize O. induction K as [|K IH]; intro s; cbn; [reflexivity|]. f_equal. apply IH. Qed.

Lemma stencil_cases os order x w : stencil os order = Ok (x, w) -> exists K, odd_number os = Ok K /\ (0 < K -> 
  (order = 0%Z /\ (x, w) = rule (mids K) ones K) \/ (order = 1%Z /\ (x, w) = rule (ends K) (trap K) K) \/ (order = 2%Z /\ (x, w) = rule (ends K) (simp K) K))%nat.
Proof.
  unfold stencil. destruct (odd_number os) as [K|]; cbn [rbind]; [|discriminate]. intro H. exists K. split; [reflexivity|]. intro HK.
  destruct (Z.eqb_spec order 0) as [->|]; [left|destruct (Z.eqb_spec order 1) as [->|]; [right; left|destruct (Z.eqb_spec order 2) as [->|]; [right; right|discriminate]]]; split; try reflexivity; (assert (H' := f_equal (fun r => match r with Ok v => v | Err _ => (x, w) end) H); cbv beta iota in H'; rewrite <- H'); unfold rule.
  - rewrite (mids_ok K HK), repeat_ones, normalised_ok. reflexivity.
  - rewrite ends_ok. change (fun i => if Nat.leb 1 i && Nat.ltb i (K - 1) then 2 else 1) with (trap K). rewrite normalised_ok. reflexivity.
  - rewrite ends_ok. change (fun i => if Nat.leb 1 i && Nat.ltb i (K - 1) then (if Nat.odd i then 4 else 2) else 1) with (simp K). rewrite normalised_ok. reflexivity.
Qed.
Lemma odd_number_ok os K : odd_number os = Ok K -> Nat.odd K = true /\ (Z.of_nat K = os \/ Z.of_nat K = os + 1)%Z.
Proof.
  unfold odd_number. cbv zeta. destruct (Z.ltb_spec (os + (1 - os mod 2)) 0) as [|H]; [discriminate|]. intro E.
  assert (EK : Z.of_nat K = (os + (1 - os mod 2))%Z) by (injection E as <-; rewrite Z2Nat.id; [reflexivity|exact H]). clear E.
  assert (M := Z.mod_pos_bound os 2 ltac:(lia)). assert (D := Z.div_mod os 2 ltac:(lia)). split; [|lia].
  apply Nat.odd_spec. exists (Z.to_nat (os / 2)). lia.
Qed.
Lemma odd_number_exists os : (0 <= os)%Z -> exists K, odd_number os = Ok K /\ (0 < K)%nat.
Proof.
  intro H. unfold odd_number. assert (M := Z.mod_pos_bound os 2 ltac:(lia)). assert (D := Z.div_mod os 2 ltac:(lia)).
  destruct (Z.ltb_spec (os + (1 - os mod 2)) 0) as [|H']; [lia|]. eexists. split; [reflexivity|]. lia.
Qed.
Lemma odd_number_neg os : (os < 0)%Z -> odd_number os = Err ValueError.
Proof.
  intros H. unfold odd_number. assert (M := Z.mod_pos_bound os 2 ltac:(lia)). assert (D := Z.div_mod os 2 ltac:(lia)).
  destruct (Z.ltb_spec (os + (1 - os mod 2)) 0) as [|H']; [reflexivity|]. lia.
Qed.
Lemma odd_number_pos os K : odd_number os = Ok K -> (0 < K)%nat.
Proof. intro H. destruct (odd_number_ok _ _ H) as [O _]. destruct K; [discriminate O|lia]. Qed.

(** ** weights and nodes *)
Lemma trap_pos K i : 0 < trap K i. Proof. unfold trap. destruct (_ && _); lra. Qed.
Lemma simp_pos K i : 0 < simp K i. Proof. unfold simp. destruct (_ && _); [destruct (Nat.odd i)|]; lra. Qed.
Lemma trap_sym K i : (i < K)%nat -> trap K (K - 1 - i) = trap K i.
Proof.
  intro H. unfold trap. replace (Nat.leb 1 (K - 1 - i) && Nat.ltb (K - 1 - i) (K - 1)) with (Nat.leb 1 i && Nat.ltb i (K - 1)); [reflexivity|].
  destruct (Nat.leb_spec 1 i), (Nat.leb_spec 1 (K - 1 - i)), (Nat.ltb_spec i (K - 1)), (Nat.ltb_spec (K - 1 - i) (K - 1)); cbn; lia || reflexivity.
Qed.
Lemma simp_sym K i : Nat.odd K = true -> (i < K)%nat -> simp K (K - 1 - i) = simp K i.
Proof.
  intros O H. unfold simp. replace (Nat.leb 1 (K - 1 - i) && Nat.ltb (K - 1 - i) (K - 1)) with (Nat.leb 1 i && Nat.ltb i (K - 1)).
  2:{ destruct (Nat.leb_spec 1 i), (Nat.leb_spec 1 (K - 1 - i)), (Nat.ltb_spec i (K - 1)), (Nat.ltb_spec (K - 1 - i) (K - 1)); cbn; lia || reflexivity. }
  replace (Nat.odd (K - 1 - i)) with (Nat.odd i); [reflexivity|]. apply Nat.odd_spec in O. destruct O as [m ->].
  rewrite (Nat.odd_sub (2 * m + 1 - 1) i) by lia. replace (2 * m + 1 - 1)%nat with (2 * m)%nat by lia. rewrite Nat.odd_mul. cbn. destruct (Nat.odd i); reflexivity.
Qed.
Lemma mids_sym K i : (i < K)%nat -> mids K (K - 1 - i) = - mids K i.
Proof.
  intro H. unfold mids. rewrite !minus_INR by lia. cbn [INR]. assert (0 < INR K) by (apply lt_0_INR; lia).
  replace ((2 * (INR K - 1 - INR i) + 1) / (2 * INR K)) with (1 - (2 * INR i + 1) / (2 * INR K)) by (field; lra). lra.
Qed.
Lemma ends_sym K i : K <> 1%nat -> (i < K)%nat -> ends K (K - 1 - i) = - ends K i.
Proof.
  intros K1 H. unfold ends. destruct (Nat.eqb_spec K 1); [contradiction|]. rewrite (minus_INR (K - 1) i) by lia. assert (0 < INR (K - 1)) by (apply lt_0_INR; lia).
  replace ((INR (K - 1) - INR i) / INR (K - 1)) with (1 - INR i / INR (K - 1)) by (field; lra). lra.
Qed.
Lemma mids_in K i : (i < K)%nat -> -1/2 < mids K i < 1/2.
Proof.
  intro H. unfold mids. assert (0 < INR K) by (apply lt_0_INR; lia). assert (Hi := pos_INR i). assert (Hk : INR i + 1 <= INR K) by (rewrite <- S_INR; apply le_INR; lia).
  assert (0 < (2 * INR i + 1) / (2 * INR K)) by (apply Rdiv_lt_0_compat; lra).
  assert ((2 * INR i + 1) / (2 * INR K) < 1). { apply Rmult_lt_reg_r with (2 * INR K); [lra|]. unfold Rdiv. rewrite Rmult_assoc, Rinv_l by lra. lra. } lra.
Qed.
Lemma ends_in K i : (i < K)%nat -> -1/2 <= ends K i <= 1/2.
Proof.
  intro H. unfold ends. destruct (Nat.eqb_spec K 1); [lra|]. assert (0 < INR (K - 1)) by (apply lt_0_INR; lia). assert (Hi := pos_INR i). assert (Hk : INR i <= INR (K - 1)) by (apply le_INR; lia).
  assert (0 <= INR i / INR (K - 1)) by (apply Rdiv_le_0_compat; lra).
  assert (INR i / INR (K - 1) <= 1). { apply Rmult_le_reg_r with (INR (K - 1)); [lra|]. unfold Rdiv. rewrite Rmult_assoc, Rinv_l by lra. lra. } lra.
Qed.

(** ** sums *)
Lemma trap_sum g M : (0 < M)%nat -> sm (fun i => trap (S M) i * g i) (S M) = sm (fun p => g p + g (S p)) M.
Proof.
  intro HM. destruct M as [|M]; [lia|]. rewrite sm_S, sm_pre.
  rewrite (sm_ext (fun i => trap (S (S M)) (S i) * g (S i)) (fun i => 2 * g (S i)) M).
  2:{ intros i Hi. unfold trap. cbn [Nat.leb andb]. destruct (Nat.ltb_spec (S i) (S (S M) - 1)); [reflexivity|lia]. }
  unfold trap at 1 2. cbn [Nat.leb andb]. destruct (Nat.ltb_spec (S M) (S (S M) - 1)); [lia|]. rewrite sm_plus, (sm_pre g), sm_scal. rewrite (sm_S (fun i => g (S i))). lra.
Qed.
Lemma simp_sum g M : (0 < M)%nat -> sm (fun i => simp (2 * M + 1) i * g i) (2 * M + 1) = sm (fun p => g (2 * p)%nat + 4 * g (2 * p + 1)%nat + g (2 * p + 2)%nat) M.
Proof.
  intro HM. 
  assert (G : forall m, (0 < m <= M)%nat -> sm (fun i => simp (2 * M + 1) i * g i) (2 * m) + g (2 * m)%nat = sm (fun p => g (2 * p)%nat + 4 * g (2 * p + 1)%nat + g (2 * p + 2)%nat) m).
  { induction m as [|m IH]; intro Hm; [lia|]. replace (2 * S m)%nat with (S (S (2 * m))) by lia. rewrite !sm_S.
    assert (S1 : simp (2 * M + 1) (S (2 * m)) = 4).
    { unfold simp. cbn [Nat.leb andb]. destruct (Nat.ltb_spec (S (2 * m)) (2 * M + 1 - 1)); [|lia]. rewrite Nat.odd_succ, Nat.even_mul. reflexivity. }
    rewrite S1. replace (2 * m + 2)%nat with (S (S (2 * m))) by lia. replace (2 * m + 1)%nat with (S (2 * m)) by lia. destruct m as [|m].
    - cbn [Nat.mul sm map seq fold_right]. unfold sm. cbn. unfold simp. cbn. lra.
    - assert (S2 : simp (2 * M + 1) (2 * S m) = 2).
      { unfold simp. rewrite (proj2 (Nat.leb_le 1 (2 * S m))) by lia. destruct (Nat.ltb_spec (2 * S m) (2 * M + 1 - 1)); [|lia]. cbn [andb]. rewrite Nat.odd_mul. reflexivity. }
      rewrite S2, <- IH by lia. lra. }
  rewrite Nat.add_1_r, sm_S, <- (Nat.add_1_r (2 * M)). rewrite <- (G M) by lia. f_equal. unfold simp. destruct (Nat.ltb_spec (2 * M) (2 * M + 1 - 1)); [lia|]. rewrite andb_false_r. lra.
Qed.
Lemma trap_total M : (0 < M)%nat -> sm (trap (S M)) (S M) = 2 * INR M.
Proof.
  intro HM. rewrite (sm_ext _ (fun i => trap (S M) i * 1)) by (intros; lra). rewrite (trap_sum (fun _ => 1) M HM). rewrite (sm_ext _ (fun _ => 2)) by (intros; lra). rewrite sm_const. lra.
Qed.
Lemma simp_total M : (0 < M)%nat -> sm (simp (2 * M + 1)) (2 * M + 1) = 6 * INR M.
Proof.
  intro HM. rewrite (sm_ext _ (fun i => simp (2 * M + 1) i * 1)) by (intros; lra). rewrite (simp_sum (fun _ => 1) M HM). rewrite (sm_ext _ (fun _ => 6)) by (intros; lra). rewrite sm_const. lra.
Qed.
