(** * Grid interpolation: one dimension *)
From Coq Require Import Reals List Bool Arith ZArith Lra Lia FunctionalExtensionality.
From Verif Require Import Num CoreOps Inst CoreFlux M_units M_kepler M_tensor M_simple M_ttv M_limbdark M_interpolated M_grid
  Spec_array Spec_light Spec_grid L_fl L_real L_shapeS.
Import ListNotations.
Open Scope R_scope.

Lemma all_ix_inside s i : In i (all_ix s) -> inside s i.
Proof.
  revert i. induction s as [|d s IH]; intros i H; cbn in H.
  { destruct H as [<-|[]]. intros k Hk. cbn in Hk. lia. }
  apply in_flat_map in H. destruct H as (i' & Hi' & H). apply in_map_iff in H. destruct H as (j & <- & Hj). apply in_seq in Hj.
  intros [|k] Hk; cbn [nth cons_ix length] in *; [lia|]. apply (IH i' Hi'). lia.
Qed.

(** ** counting smaller entries *)
Definition cnt (g : list R) (x : R) : nat := length (filter (fun a => Rltb a x) g).
Lemma search_cnt g x : searchsorted (map Fin g) (Fin x) = Z.of_nat (cnt g x).
Proof.
  unfold searchsorted, cnt. f_equal. induction g as [|a g IH]; [reflexivity|].
  cbn [map filter flt]. destruct (Rltb a x); cbn [length]; rewrite IH; reflexivity.
Qed.
Definition incr (g : list R) : Prop := forall a b, (a < b)%nat -> (b < length g)%nat -> nth a g 0 < nth b g 0.
Lemma incr_tail a g : incr (a :: g) -> incr g.
Proof. intros H p q Hp Hq. apply (H (S p) (S q)); cbn; lia. Qed.
Lemma cnt_spec g x : incr g -> forall k, (k < length g)%nat -> (nth k g 0 < x <-> (k < cnt g x)%nat).
Proof.
  induction g as [|a g IH]; intros HG k Hk; [cbn in Hk; lia|].
  assert (HG' := incr_tail _ _ HG). unfold cnt in *. cbn [filter].
  unfold Rltb at 1. destruct (Rlt_dec a x) as [L|L].
  - cbn [length]. destruct k; cbn [nth]; [split; [lia|intro; exact L]|].
    cbn [length] in Hk. rewrite (IH HG' k) by lia. lia.
  - assert (Z : filter (fun a => Rltb a x) g = []).
    { clear IH. assert (HA : forall b, In b g -> a < b).
      { intros b Hb. apply (In_nth _ _ 0) in Hb. destruct Hb as (n & Hn & <-). apply (HG O (S n)); cbn; lia. }
      clear Hk HG HG'. induction g as [|b g IHg]; [reflexivity|]. cbn [filter]. unfold Rltb at 1.
      assert (a < b) by (apply HA; left; reflexivity). destruct (Rlt_dec b x); [lra|]. apply IHg. intros; apply HA; right; assumption. }
    rewrite Z. cbn [length]. split; [|lia]. intro H.
    destruct k; cbn [nth] in H; [lra|]. assert (a < nth k g 0) by (apply (HG O (S k)); cbn in *; lia). lra.
Qed.
Lemma cnt_le g x : (cnt g x <= length g)%nat.
Proof. unfold cnt. induction g as [|a g IH]; [apply le_n|]. cbn [filter]. destruct (Rltb a x); cbn [length]; lia. Qed.

(** ** the cell of a coordinate *)
Definition cellof (g : list R) (x : R) : nat := Nat.min (cnt g x - 1) (length g - 2).
Definition frac (g : list R) (x : R) : R := (x - nth (cellof g x) g 0) / (nth (S (cellof g x)) g 0 - nth (cellof g x) g 0).
Lemma zclip_cell g x : (2 <= length g)%nat ->
  zclip 0 (Z.of_nat (length g) - 2) (Z.of_nat (cnt g x) - 1) = Z.of_nat (cellof g x).
Proof.
  intro H. unfold zclip, cellof.
  destruct (Z.ltb_spec (Z.of_nat (cnt g x) - 1) 0); [lia|]. destruct (Z.ltb_spec (Z.of_nat (length g) - 2) (Z.of_nat (cnt g x) - 1)); lia.
Qed.
Lemma cellof_belongs g x : grid_ok g -> belongs g x (cellof g x).
Proof.
  intros [H2 HG]. assert (C := cnt_le g x). unfold belongs. set (c := cellof g x).
  assert (Hc : c = Nat.min (cnt g x - 1) (length g - 2)) by reflexivity. clearbody c.
  split; [lia|]. split.
  - destruct c as [|c]; [left; reflexivity|]. right. apply Rlt_le. apply (cnt_spec g x HG); lia.
  - destruct (Nat.eq_dec (S (S c)) (length g)) as [E|E]; [left; exact E|]. right.
    apply Rnot_lt_le. intro L. apply (cnt_spec g x HG) in L; lia.
Qed.
Lemma last_nth (g : list R) : last g 0 = nth (length g - 1) g 0.
Proof.
  induction g as [|a g IH]; [reflexivity|]. destruct g as [|b g]; [reflexivity|].
  change (last (a :: b :: g) 0) with (last (b :: g) 0). rewrite IH. cbn [length Nat.sub nth].
  destruct g; [reflexivity|]. cbn [length Nat.sub]. reflexivity.
Qed.
Lemma outside_cnt g x : grid_ok g ->
  ((Z.of_nat (cnt g x) - 1 <? 0) || (Z.of_nat (length g) - 1 <=? Z.of_nat (cnt g x) - 1))%Z
  = (Rleb x (nth 0 g 0) || Rltb (last g 0) x).
Proof.
  intros [H2 HG]. assert (C := cnt_le g x). rewrite last_nth.
  assert (A0 := cnt_spec g x HG O ltac:(lia)). assert (A1 := cnt_spec g x HG (length g - 1)%nat ltac:(lia)).
  f_equal.
  - unfold Rleb. destruct (Rle_dec x (nth 0 g 0)) as [L|L].
    + apply Z.ltb_lt. assert (~ (0 < cnt g x)%nat) by (intro Q; apply A0 in Q; lra). lia.
    + apply Z.ltb_ge. assert (nth 0 g 0 < x) by lra. apply A0 in H. lia.
  - unfold Rltb. destruct (Rlt_dec (nth (length g - 1) g 0) x) as [L|L].
    + apply Z.leb_le. apply A1 in L. lia.
    + apply Z.leb_gt. assert (~ (length g - 1 < cnt g x)%nat) by (intro Q; apply A1 in Q; lra). lia.
Qed.

Lemma take_fin g (k : nat) : (k < length g)%nat -> take (map Fin g) (Z.of_nat k) = Ok (Fin (nth k g 0)).
Proof.
  intro H. unfold take. cbv zeta.
  replace (Z.of_nat k <? 0)%Z with false by (symmetry; apply Z.ltb_ge; lia).
  replace (Z.of_nat k <? 0)%Z with false by (symmetry; apply Z.ltb_ge; lia).
  rewrite Nat2Z.id, nth_error_map, (nth_error_nth' g 0) by exact H. reflexivity.
Qed.

Lemma amap_res_ok {A C} (f : A -> res C) d (a : arr A) s : ash a = Ok s ->
  (forall i, inside s i -> exists c, f (aget a i) = Ok c) ->
  exists b, amap_res f d a = Ok b /\ ash b = Ok s /\ forall i c, f (aget a i) = Ok c -> aget b i = c.
Proof.
  intros HS HA. unfold amap_res. rewrite HS. cbn [rbind].
  replace (forallb _ (all_ix s)) with true.
  - eexists. split; [reflexivity|]. split; [reflexivity|]. intros i c H. cbn [aget]. rewrite H. reflexivity.
  - symmetry. apply forallb_forall. intros i Hi. destruct (HA i (all_ix_inside _ _ Hi)) as [c ->]. reflexivity.
Qed.

Lemma grid_axis_ok g x s : grid_ok g -> ash x = Ok s -> (forall i, inside s i -> exists v, aget x i = Fin v) ->
  exists I B y, grid_axis (map Fin g) x = Ok (I, B, y) /\ ash I = Ok s /\ ash B = Ok s /\ ash y = Ok s /\
    forall i v, aget x i = Fin v ->
      aget I i = Z.of_nat (cellof g v) /\ aget y i = Fin (frac g v) /\ aget B i = (Rleb v (nth 0 g 0) || Rltb (last g 0) v).
Proof.
  intros HG HS HV. destruct HG as [H2 HI]. assert (HG : grid_ok g) by (split; assumption).
  unfold grid_axis. cbv zeta. rewrite map_length.
  set (I := amap (zclip 0 (Z.of_nat (length g) - 2)) (amap (fun x => (searchsorted (map Fin g) x - 1)%Z) x)).
  assert (EI : forall i v, aget x i = Fin v -> aget I i = Z.of_nat (cellof g v)).
  { intros i v E. cbn [I amap aget]. rewrite E, search_cnt. apply zclip_cell. exact H2. }
  assert (SI : ash I = Ok s) by exact HS.
  destruct (amap_res_ok (take (map Fin g)) NaN I s SI) as (g0 & -> & S0 & V0).
  { intros i Hi. destruct (HV i Hi) as [v E]. rewrite (EI i v E). destruct (cellof_belongs g v HG) as [B _]. eexists. apply take_fin. lia. }
  cbn [rbind].
  destruct (amap_res_ok (take (map Fin g)) NaN (amap (Z.add 1) I) s SI) as (g1 & -> & S1 & V1).
  { intros i Hi. destruct (HV i Hi) as [v E]. cbn [amap aget]. rewrite (EI i v E). destruct (cellof_belongs g v HG) as [B _]. eexists.
    replace (1 + Z.of_nat (cellof g v))%Z with (Z.of_nat (S (cellof g v))) by lia. apply take_fin. lia. }
  cbn [rbind]. do 3 eexists. split; [reflexivity|]. split; [exact SI|]. split; [exact HS|].
  split. { cbn [ndiv nsub NumT amap2 ash]. rewrite HS, S0, S1. cbn [bcr]. rewrite bc_refl. cbn [bcr]. rewrite bc_refl. reflexivity. }
  intros i v E. destruct (cellof_belongs g v HG) as [B _]. split; [apply EI; exact E|].
  assert (G0 : aget g0 i = Fin (nth (cellof g v) g 0)).
  { apply V0. rewrite (EI i v E). apply take_fin. lia. }
  assert (G1 : aget g1 i = Fin (nth (S (cellof g v)) g 0)).
  { apply V1. cbn [amap aget]. rewrite (EI i v E). replace (1 + Z.of_nat (cellof g v))%Z with (Z.of_nat (S (cellof g v))) by lia. apply take_fin. lia. }
  split.
  - cbn [ndiv nsub NumT amap2 aget]. rewrite E, G0, G1. assert (Q := HI (cellof g v) (S (cellof g v)) ltac:(lia) B).
    unfold fsub. cbn [fadd fneg]. rewrite fdiv_fin by lra. reflexivity.
  - cbn [amap aget]. rewrite E, search_cnt. apply outside_cnt. exact HG.
Qed.
