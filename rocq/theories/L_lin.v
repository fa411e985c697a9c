(** * Linear systems *)
From Coq Require Import Reals List Bool Arith Lia Lra Permutation.
From Verif Require Import Num CoreLin.
Import ListNotations.
Open Scope R_scope.

Definition zeros (n : nat) : list R := repeat 0 n.
Lemma dot_nil_r a : dot a [] = 0. Proof. destruct a; reflexivity. Qed.
Lemma dot_zeros a n : dot a (zeros n) = 0.
Proof. revert n. induction a as [|x a IH]; intro n; [reflexivity|]. destruct n; [reflexivity|]. cbn. rewrite IH. ring. Qed.
Lemma dot_comm a b : dot a b = dot b a.
Proof. revert b. induction a as [|x a IH]; destruct b as [|y b]; try reflexivity. cbn. rewrite IH. ring. Qed.
Lemma dot_elim r c k : forall v, length r = length c -> length v = length r ->
  dot (map (fun z => fst z - k * snd z) (combine r c)) v = dot r v - k * dot c v.
Proof.
  revert c. induction r as [|x r IH]; destruct c as [|y c]; intros v L1 L2; try discriminate.
  - cbn. ring.
  - destruct v as [|u v]; [discriminate|]. cbn in *. rewrite IH by lia. ring.
Qed.
Lemma elim_length r c k : length r = length c -> length (map (fun z : R * R => fst z - k * snd z) (combine r c)) = length r.
Proof. intro L. rewrite map_length, combine_length. lia. Qed.

Definition sat (w : list R) (row : lrow) : Prop := dot (fst row) w = snd row.
Definition wide (n : nat) (rows : list lrow) : Prop := Forall (fun row => length (fst row) = n) rows.

Lemma pivot_some rows p c b others : pivot rows = Some (p, c, b, others) -> p <> 0 /\ Permutation rows ((p :: c, b) :: others).
Proof.
  revert p c b others. induction rows as [|[[|q r] d] rows IH]; intros p c b others E; try discriminate. cbn in E.
  destruct (Req_EM_T q 0) as [Z|Z].
  - destruct (pivot rows) as [[[[p' c'] b'] o']|]; [|discriminate]. injection E as <- <- <- <-. destruct (IH _ _ _ _ eq_refl) as [H1 H2].
    split; [exact H1|]. rewrite H2. apply perm_swap.
  - injection E as <- <- <- <-. split; [exact Z|reflexivity].
Qed.
Lemma pivot_none n rows : wide (S n) rows -> pivot rows = None -> Forall (fun row : lrow => exists r, fst row = 0 :: r) rows.
Proof.
  induction rows as [|[[|q r] d] rows IH]; intros W E; [constructor| |].
  - inversion W as [|? ? H]; discriminate H.
  - cbn in E. destruct (Req_EM_T q 0) as [->|]; [|discriminate]. inversion W; subst.
    destruct (pivot rows) as [[[[? ?] ?] ?]|]; [discriminate|]. constructor; [eexists; reflexivity|]. apply IH; [assumption|reflexivity].
Qed.

Lemma gauss_sound : forall n rows w, wide n rows -> length rows = n -> gauss n rows = Some w -> length w = n /\ Forall (sat w) rows.
Proof.
  induction n as [|n IH]; intros rows w W L E.
  - destruct rows; [|discriminate]. injection E as <-. split; [reflexivity|constructor].
  - cbn [gauss] in E. destruct (pivot rows) as [[[[p c] b] others]|] eqn:EP; [|discriminate].
    destruct (pivot_some _ _ _ _ _ EP) as [Hp PM].
    destruct (gauss n _) as [v|] eqn:EG; [|discriminate]. injection E as <-.
    assert (W' : wide (S n) ((p :: c, b) :: others)) by (unfold wide in *; rewrite <- PM; exact W).
    inversion W' as [|? ? HC HO]; subst. cbn [fst length] in HC. injection HC as HC.
    assert (WR : wide n (map (eliminate p c b) others)).
    { unfold wide. rewrite Forall_map. apply Forall_forall. intros [r d] I. rewrite Forall_forall in HO. assert (H := HO _ I). cbn [fst] in H.
      destruct r as [|q r]; [discriminate|]. cbn [eliminate fst]. cbn in H. rewrite elim_length by lia. lia. }
    destruct (IH _ v WR) as [LV SV]; [rewrite map_length; apply Permutation_length in PM; cbn in PM; lia|exact EG|].
    split; [cbn; lia|]. rewrite PM. constructor.
    + unfold sat. cbn. field. exact Hp.
    + apply Forall_forall. intros [r d] I. rewrite Forall_forall in HO. assert (H := HO _ I). cbn [fst] in H.
      destruct r as [|q r]; [discriminate|]. cbn in H. rewrite Forall_map, Forall_forall in SV. assert (S1 := SV _ I). unfold sat in *. cbn [eliminate fst snd] in S1.
      rewrite dot_elim in S1 by lia. cbn [fst snd dot]. replace (dot r v) with (d - q / p * b + q / p * dot c v) by lra. field. exact Hp.
Qed.
Lemma gauss_complete : forall n rows, wide n rows -> length rows = n ->
  (forall w, length w = n -> Forall (fun row : lrow => dot (fst row) w = 0) rows -> w = zeros n) -> exists w, gauss n rows = Some w.
Proof.
  induction n as [|n IH]; intros rows W L J; [eexists; reflexivity|]. cbn [gauss].
  destruct (pivot rows) as [[[[p c] b] others]|] eqn:EP.
  - destruct (pivot_some _ _ _ _ _ EP) as [Hp PM].
    assert (W' : wide (S n) ((p :: c, b) :: others)) by (unfold wide in *; rewrite <- PM; exact W).
    inversion W' as [|? ? HC HO]; subst. cbn [fst length] in HC. injection HC as HC.
    assert (WR : wide n (map (eliminate p c b) others)).
    { unfold wide. rewrite Forall_map. apply Forall_forall. intros [r d] I. rewrite Forall_forall in HO. assert (H := HO _ I). cbn [fst] in H.
      destruct r as [|q r]; [discriminate|]. cbn [eliminate fst]. cbn in H. rewrite elim_length by lia. lia. }
    destruct (IH (map (eliminate p c b) others) WR) as (v & EV).
    + rewrite map_length. apply Permutation_length in PM. cbn in PM. lia.
    + intros v LV KV. assert (Q : - (dot c v) / p :: v = zeros (S n)); [|injection Q as _ Q; exact Q].
      apply J; [cbn; lia|]. rewrite PM. constructor.
      * cbn. field. exact Hp.
      * apply Forall_forall. intros [r d] I. rewrite Forall_forall in HO. assert (H := HO _ I). cbn [fst] in H.
        destruct r as [|q r]; [discriminate|]. cbn in H. rewrite Forall_map, Forall_forall in KV. assert (S1 := KV _ I). cbn [eliminate fst] in S1.
        rewrite dot_elim in S1 by lia. cbn [fst dot]. replace (dot r v) with (q / p * dot c v) by lra. field. exact Hp.
    + rewrite EV. eexists; reflexivity.
  - exfalso. assert (N := pivot_none n rows W EP).
    assert (Q : 1 :: zeros n = zeros (S n)); [|injection Q; lra].
    apply J; [cbn; unfold zeros; rewrite repeat_length; reflexivity|]. apply Forall_forall. intros row I. rewrite Forall_forall in N. destruct (N _ I) as (r & ->).
    cbn. rewrite dot_zeros. ring.
Qed.

Lemma wide_combine n (A : list (list R)) (b : list R) : forallb (fun r => Nat.eqb (length r) n) A = true -> wide n (combine A b).
Proof.
  intro H. apply Forall_forall. intros [r d] I. apply in_combine_l in I. rewrite forallb_forall in H. apply Nat.eqb_eq. apply (H r I).
Qed.
Lemma linsolve_sound A b w : linsolve A b = Ok w -> length w = length A /\ length b = length A /\ map (fun r => dot r w) A = b.
Proof.
  unfold linsolve. destruct (forallb _ A && _) eqn:E; [|discriminate]. apply andb_prop in E. destruct E as [E1 E2]. apply Nat.eqb_eq in E2.
  destruct (gauss _ _) as [v|] eqn:EG; [|discriminate]. intro Q. injection Q as <-.
  assert (LC : length (combine A b) = length A) by (rewrite combine_length; lia).
  destruct (gauss_sound _ _ _ (wide_combine _ A b E1) LC EG) as [LV SV]. split; [exact LV|]. split; [exact E2|].
  clear -E2 SV. revert b E2 SV. induction A as [|r A IH]; destruct b as [|d b]; intros L S; try discriminate; [reflexivity|].
  inversion S; subst. cbn [map]. f_equal; [assumption|]. apply IH; [cbn in L; lia|assumption].
Qed.
Lemma linsolve_complete A b : Forall (fun r => length r = length A) A -> length b = length A ->
  (forall w, length w = length A -> Forall (fun r => dot r w = 0) A -> w = zeros (length A)) -> exists w, linsolve A b = Ok w.
Proof.
  intros WA LB J. unfold linsolve. assert (E : forallb (fun r => Nat.eqb (length r) (length A)) A = true).
  { apply forallb_forall. rewrite Forall_forall in WA. intros r I. apply Nat.eqb_eq. apply WA. exact I. }
  rewrite E, LB, Nat.eqb_refl. cbn [andb].
  assert (LC : length (combine A b) = length A) by (rewrite combine_length; lia).
  assert (G : exists w, gauss (length A) (combine A b) = Some w); [|destruct G as (w & ->); eexists; reflexivity].
  apply gauss_complete; [apply wide_combine; exact E|exact LC|].
  intros w LW H. apply J; [exact LW|]. apply Forall_forall. intros r I. rewrite Forall_forall in H.
  destruct (In_nth _ _ [] I) as (i & Li & Q). assert (I2 : In (nth i (combine A b) ([], 0)) (combine A b)) by (apply nth_In; rewrite combine_length; lia).
  rewrite combine_nth in I2 by lia. rewrite Q in I2. exact (H _ I2).
Qed.
(** a solution is found when it exists and is unique *)
Lemma linsolve_unique A w : Forall (fun r => length r = length A) A -> length w = length A ->
  (forall v, length v = length A -> Forall (fun r => dot r v = 0) A -> v = zeros (length A)) ->
  linsolve A (map (fun r => dot r w) A) = Ok w.
Proof.
  intros WA LW J. destruct (linsolve_complete A (map (fun r => dot r w) A) WA) as (v & E); [apply map_length|exact J|].
  rewrite E. f_equal. destruct (linsolve_sound _ _ _ E) as (LV & _ & SV).
  assert (D : forall a b r : list R, length a = length b -> length r = length a -> dot r (map (fun z => fst z - 1 * snd z) (combine a b)) = dot r a - dot r b).
  { intros a b r L1 L2. rewrite dot_comm, dot_elim by lia. rewrite (dot_comm a r), (dot_comm b r). ring. }
  assert (Z : map (fun z => fst z - 1 * snd z) (combine v w) = zeros (length A)).
  { apply J; [rewrite elim_length; lia|]. apply Forall_forall. intros r I. rewrite Forall_forall in WA. rewrite D by (rewrite ?(WA r I); lia).
    assert (H : forall r, In r A -> dot r v = dot r w) by (apply ext_in_map; exact SV). rewrite (H r I). ring. }
  rewrite <- LV in Z. assert (L : length v = length w) by lia. clear -Z L. revert w Z L.
  induction v as [|x v IH]; destruct w as [|y w]; intros Z L; try discriminate; [reflexivity|]. cbn in Z. injection Z as Z1 Z2. f_equal; [lra|]. apply IH; [exact Z2|cbn in L; lia].
Qed.
Lemma gauss_inj : forall n rows w, wide n rows -> gauss n rows = Some w ->
  forall v, length v = n -> Forall (fun row : lrow => dot (fst row) v = 0) rows -> v = zeros n.
Proof.
  induction n as [|n IH]; intros rows w W E v LV K.
  - destruct v; [reflexivity|discriminate].
  - cbn [gauss] in E. destruct (pivot rows) as [[[[p c] b] others]|] eqn:EP; [|discriminate].
    destruct (pivot_some _ _ _ _ _ EP) as [Hp PM].
    destruct (gauss n _) as [u|] eqn:EG; [|discriminate].
    assert (W' : wide (S n) ((p :: c, b) :: others)) by (unfold wide in *; rewrite <- PM; exact W).
    assert (K' : Forall (fun row : lrow => dot (fst row) v = 0) ((p :: c, b) :: others)) by (rewrite <- PM; exact K).
    inversion W' as [|? ? HC HO]; subst. cbn [fst length] in HC. injection HC as HC.
    assert (KC := Forall_inv K'). assert (KO := Forall_inv_tail K'). destruct v as [|x v]; [discriminate|]. cbn in LV. cbn in KC.
    assert (WR : wide n (map (eliminate p c b) others)).
    { unfold wide. rewrite Forall_map. apply Forall_forall. intros [r d] I. rewrite Forall_forall in HO. assert (H := HO _ I). cbn [fst] in H.
      destruct r as [|q r]; [discriminate|]. cbn [eliminate fst]. cbn in H. rewrite elim_length by lia. lia. }
    assert (ZV : v = zeros n).
    { apply (IH _ _ WR EG v); [lia|]. rewrite Forall_map. apply Forall_forall. intros [r d] I. rewrite Forall_forall in HO. assert (H := HO _ I). cbn [fst] in H.
      destruct r as [|q r]; [discriminate|]. cbn in H. rewrite Forall_forall in KO. assert (H2 := KO _ I). cbn [fst dot] in H2. cbn [eliminate fst].
      rewrite dot_elim by lia. replace (dot r v) with (- (q * x)) by lra. replace (dot c v) with (- (p * x)) by lra. field. exact Hp. }
    unfold zeros. cbn [repeat]. fold (zeros n). rewrite ZV in KC |- *. rewrite dot_zeros in KC. f_equal.
    assert (H : p * x = 0) by lra. apply Rmult_integral in H. tauto.
Qed.
Lemma linsolve_inj A b w : linsolve A b = Ok w ->
  forall v, length v = length A -> Forall (fun r => dot r v = 0) A -> v = zeros (length A).
Proof.
  unfold linsolve. destruct (forallb _ A && _) eqn:E; [|discriminate]. apply andb_prop in E. destruct E as [E1 E2]. apply Nat.eqb_eq in E2.
  destruct (gauss _ _) as [u|] eqn:EG; [|discriminate]. intros _ v LV K. apply (gauss_inj _ _ _ (wide_combine _ A b E1) EG v LV).
  apply Forall_forall. intros [r d] I. apply in_combine_l in I. rewrite Forall_forall in K. apply K. exact I.
Qed.
