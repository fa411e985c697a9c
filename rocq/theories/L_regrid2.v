(** * The same data on another grid: theorems *)
From Coq Require Import Reals List Bool Arith ZArith Lra Lia Permutation.
From Verif Require Import Num CoreOps Inst CoreFlux M_units M_kepler M_tensor M_simple M_ttv M_limbdark M_interpolated M_grid
  Spec_array Spec_light Spec_grid Spec_gridacc Spec_regrid L_fl L_real L_shapeS L_grid1 L_grid2 L_grid3 L_grid4 L_gridacc L_regrid.
Import ListNotations.
Open Scope R_scope.
Local Notation length := List.length.

Lemma filled_dec gs xs : filled gs xs \/ ~ filled gs xs.
Proof.
  unfold filled. generalize (length gs). intro m. induction m as [|m IH]; [right; intros (n & Hn & _); lia|].
  destruct IH as [(n & Hn & H)|IH]; [left; exists n; split; [lia|exact H]|].
  destruct (Rle_dec (nth m xs 0) (nth 0 (nth m gs []) 0)) as [L|L]; [left; exists m; split; [lia|left; exact L]|].
  destruct (Rlt_dec (last (nth m gs []) 0) (nth m xs 0)) as [L'|L']; [left; exists m; split; [lia|right; exact L']|].
  right. intros (n & Hn & H). destruct (Nat.eq_dec n m) as [->|E]; [tauto|]. apply IH. exists n. split; [lia|exact H].
Qed.
Lemma both_grids gs gs' values values' V V' coords coords' s xs xs' fill (where_ : idx -> Prop) :
  List.Forall grid_ok gs -> List.Forall grid_ok gs' -> grid_data gs values V -> grid_data gs' values' V' -> test_points (length gs) s coords xs -> test_points (length gs') s coords' xs' ->
  (forall i, inside s i -> where_ i -> gval gs V (xs i) = gval gs' V' (xs' i)) -> (fill <> None -> forall i, inside s i -> where_ i -> (filled gs (xs i) <-> filled gs' (xs' i))) ->
  same_interpolation gs values coords gs' values' coords' fill s where_.
Proof.
  intros G G' D D' T T' E Ef.
  destruct (grid_value gs values V coords s xs G D T) as (Z & EZ & SZ & VZ). destruct (grid_value gs' values' V' coords' s xs' G' D' T') as (Z' & EZ' & SZ' & VZ').
  destruct fill as [f|].
  - destruct (grid_fill gs values V coords s xs f G D T) as (Y & Z1 & EY & SY & EZ1 & _ & VY). rewrite EZ in EZ1. injection EZ1 as <-.
    destruct (grid_fill gs' values' V' coords' s xs' f G' D' T') as (Y' & Z1' & EY' & SY' & EZ1' & _ & VY'). rewrite EZ' in EZ1'. injection EZ1' as <-.
    exists Y, Y'. do 4 (split; [assumption|]). intros i Hi Hw. destruct (VY i Hi) as [A1 A2]. destruct (VY' i Hi) as [B1 B2]. assert (Q := Ef ltac:(discriminate) i Hi Hw).
    destruct (filled_dec gs (xs i)) as [F|F].
    + rewrite A1, B1 by tauto. reflexivity.
    + rewrite A2, B2 by tauto. rewrite VZ, VZ', E by assumption. reflexivity.
  - exists Z, Z'. do 4 (split; [assumption|]). intros i Hi Hw. rewrite VZ, VZ', E by assumption. reflexivity.
Qed.
Lemma Forall2_length {A B} (P : A -> B -> Prop) l m : Forall2 P l m -> length l = length m.
Proof. intro H. induction H; cbn; congruence. Qed.
Arguments Forall2_length {A B P l m}.

(** ** refining *)
Lemma on_len gs js : on_grid gs js -> length js = length gs.
Proof. intro H. symmetry. exact (Forall2_length H). Qed.
Lemma point_len gs js : length js = length gs -> length (grid_point gs js) = length gs.
Proof. revert js. induction gs as [|g gs IH]; intros [|j js] L; try discriminate; [reflexivity|]. cbn. f_equal. apply IH. cbn in L. lia. Qed.
Lemma rev_at (js : list nat) (i : idx) : (forall ax, (ax < length js)%nat -> i ax = nth ax (rev js) O) -> js = map (fun n => i (length js - 1 - n)%nat) (seq 0 (length js)).
Proof.
  intro H. apply nth_ext with (d := O) (d' := O); [rewrite map_length, seq_length; reflexivity|]. intros n Hn.
  rewrite (nth_indep (map (fun n => i (length js - 1 - n)%nat) (seq 0 (length js))) O (i (length js - 1 - 0)%nat)) by (rewrite map_length, seq_length; exact Hn). rewrite (map_nth (fun n => i (length js - 1 - n)%nat)), seq_nth by exact Hn. cbn [plus].
  rewrite H by lia. rewrite rev_nth by lia. f_equal. lia.
Qed.
Definition js_of (D : nat) (i : idx) : list nat := map (fun n => i (D - 1 - n)%nat) (seq 0 D).
Lemma js_of_rev js : js_of (length js) (fun ax => nth ax (rev js) O) = js.
Proof. symmetry. apply rev_at. intros ax Hax. reflexivity. Qed.
Lemma inside_on gs i : inside (rev (map (@length R) gs)) i -> on_grid gs (js_of (length gs) i).
Proof.
  intro H. unfold on_grid, js_of. set (D := length gs).
  assert (K : forall n, (n < D)%nat -> (i (D - 1 - n)%nat < length (nth n gs []))%nat).
  { intros n Hn. assert (Q := H (D - 1 - n)%nat). rewrite rev_length, map_length in Q. specialize (Q ltac:(fold D; lia)). rewrite rev_nth in Q by (rewrite map_length; fold D; lia). rewrite map_length in Q. fold D in Q.
    replace (D - S (D - 1 - n))%nat with n in Q by lia. rewrite (nth_indep (map (@length R) gs) _ (length (@nil R))) in Q by (rewrite map_length; exact Hn). rewrite map_nth in Q. exact Q. }
  clear H. change (length gs) with D. revert K. generalize (D - 1)%nat. unfold D. clear D. intros m K.
  assert (W : forall (gs : list (list R)) b, (forall n, (n < length gs)%nat -> (i (m - (b + n))%nat < length (nth n gs []))%nat) -> Forall2 (fun g j => (j < length g)%nat) gs (map (fun n => i (m - n)%nat) (seq b (length gs)))).
  { clear K gs. induction gs as [|g gs IH]; intros b K; [constructor|]. cbn. constructor; [assert (Q := K O ltac:(cbn; lia)); rewrite Nat.add_0_r in Q; exact Q|].
    apply IH. intros n Hn. assert (Q := K (S n) ltac:(cbn; lia)). replace (b + S n)%nat with (S b + n)%nat in Q by lia. exact Q. }
  apply W. exact K.
Qed.
Lemma inside_of gs js : on_grid gs js -> inside (rev (map (@length R) gs)) (fun ax => nth ax (rev js) O).
Proof.
  intros H ax Hax. assert (L := on_len gs js H). rewrite rev_length, map_length in Hax. rewrite !rev_nth by (rewrite ?map_length; lia). rewrite map_length, L.
  rewrite (nth_indep (map (@length R) gs) _ (length (@nil R))) by (rewrite map_length; lia). rewrite (map_nth (@length R)). set (n := (length gs - S ax)%nat). assert (Hn : (n < length gs)%nat) by (unfold n; lia). clearbody n. clear Hax L.
  revert n Hn. induction H as [|g j gs js A B IH]; intros n Hn; [cbn in Hn; lia|]. destruct n as [|n]; [exact A|]. apply IH. cbn in Hn. lia.
Qed.
Lemma refined : forall gs gs' values V mesh values' coords s xs fill, List.Forall grid_ok gs -> List.Forall grid_ok gs' -> Forall2 finer gs gs' ->
  grid_data gs values V -> all_points gs' mesh -> twf mesh -> regular_grid_interp (map (map Fin) gs) values mesh None = Ok values' ->
  test_points (length gs) s coords xs -> (fill <> None -> Forall2 same_ends gs gs') ->
  same_interpolation gs values coords gs' values' coords fill s (fun _ => True).
Proof.
  intros gs gs' values V mesh values' coords s xs fill G G' F D [M1 M2] Wm E T Ef. assert (L := Forall2_length F).
  assert (Tm : test_points (length gs) (rev (map (@length R) gs')) mesh (fun i => grid_point gs' (js_of (length gs') i))).
  { split; [rewrite L; exact M1|]. intros i Hi. assert (On := inside_on gs' i Hi). split; [rewrite point_len; [symmetry; exact L|apply on_len, On]|].
    intros n Hn. rewrite L in Hn. rewrite <- (M2 _ n On Hn). apply (Wm _ M1). intros ax Hax. cbn [cons_ix].
    destruct ax as [|ax]; [reflexivity|]. assert (Ha : (ax < length gs')%nat). { destruct (lt_dec ax (length gs')) as [Q|Q]; [exact Q|]. exfalso. apply Hax. apply nth_overflow. cbn. rewrite rev_length, map_length. lia. }
    cbn [cons_ix]. rewrite rev_nth by (unfold js_of; rewrite map_length, seq_length; lia). unfold js_of. rewrite map_length, seq_length.
    rewrite (nth_indep (map (fun n => i (length gs' - 1 - n)%nat) (seq 0 (length gs'))) O (i (length gs' - 1 - 0)%nat)) by (rewrite map_length, seq_length; lia). rewrite (map_nth (fun n => i (length gs' - 1 - n)%nat)), seq_nth by lia. f_equal. lia. }
  destruct (grid_value gs values V mesh _ _ G D Tm) as (Z & EZ & SZ & VZ). rewrite E in EZ. injection EZ as <-.
  apply (both_grids gs gs' values values' V (fun js => gval gs V (grid_point gs' js)) coords coords s xs xs fill); try assumption.
  - split; [exact SZ|]. intros js On. rewrite VZ by (apply inside_of, On). rewrite <- (on_len gs' js On), js_of_rev. reflexivity.
  - rewrite <- L. exact T.
  - intros i Hi _. symmetry. apply gval_finer; try assumption. apply T, Hi.
  - intros Hf i Hi _. specialize (Ef Hf). unfold filled. rewrite <- L.
    assert (K : forall n, (n < length gs)%nat -> nth 0 (nth n gs []) 0 = nth 0 (nth n gs' []) 0 /\ last (nth n gs []) 0 = last (nth n gs' []) 0).
    { clear - Ef. induction Ef as [|g g' gs gs' A B IH]; intros n Hn; [cbn in Hn; lia|]. destruct n as [|n]; [exact A|]. apply IH. cbn in Hn. lia. }
    split; intros (n & Hn & H); exists n; destruct (K n Hn) as [K1 K2]; rewrite K1, K2 in *; tauto.
Qed.
(** ** cutting *)
Lemma runs_len ks gs gs' : runs ks gs gs' -> length gs' = length gs /\ length ks = length gs.
Proof. intro H. induction H; cbn; lia. Qed.
Lemma runs_on ks gs gs' js : runs ks gs gs' -> on_grid gs' js -> on_grid gs (plus_each ks js).
Proof.
  intro H. revert js. induction H as [|k ks g gs g' gs' R RR IH]; intros js O; inversion O; subst; [constructor|]. cbn. constructor; [destruct R; lia|]. apply IH. assumption.
Qed.
Lemma cut : forall ks gs gs' values V values' V' coords s xs fill, List.Forall grid_ok gs -> List.Forall grid_ok gs' -> runs ks gs gs' ->
  grid_data gs values V -> grid_data gs' values' V' -> (forall js, on_grid gs' js -> V' js = V (plus_each ks js)) -> test_points (length gs) s coords xs ->
  same_interpolation gs values coords gs' values' coords fill s (fun i => within gs' (xs i) /\ (fill <> None -> ~ filled gs' (xs i))).
Proof.
  intros ks gs gs' values V values' V' coords s xs fill G G' H D D' HV T. destruct (runs_len ks gs gs' H) as [L _].
  apply (both_grids gs gs' values values' V V' coords coords s xs xs fill); try assumption.
  - rewrite L. exact T.
  - intros i Hi [W _]. rewrite (gval_ext gs' G' V' (fun js => V (plus_each ks js)) (xs i)); [|apply within_len, W|exact HV]. symmetry. apply gval_run; assumption.
  - intros Hf i Hi [W N]. specialize (N Hf). split; [|tauto]. intros (n & Hn & Q). exfalso. apply N. exists n. split; [lia|]. clear N.
    assert (K : forall n, (n < length gs)%nat -> nth 0 (nth n gs []) 0 <= nth 0 (nth n gs' []) 0 /\ last (nth n gs' []) 0 <= last (nth n gs []) 0).
    { clear - H G G'. induction H as [|k ks g gs g' gs' R RR IH]; intros n Hn; [cbn in Hn; lia|]. inversion G; subst. inversion G'; subst. destruct n as [|n]; [|apply IH; try assumption; cbn in Hn; lia].
      cbn. destruct R as [R1 R2]. assert (G2 : (2 <= length g')%nat) by (match goal with H : grid_ok g' |- _ => apply H end). rewrite !last_nth, !R2 by lia. split; apply incr_le; try assumption; lia. }
    destruct (K n Hn). destruct Q; [left; lra|right; lra].
Qed.
(** ** other units *)
Lemma scaled_oks abs gs : List.Forall (fun p => 0 < fst p) abs -> List.Forall grid_ok gs -> List.Forall grid_ok (rescaled_grid abs gs).
Proof. revert abs. induction gs as [|g gs IH]; intros [|[a b] abs] Ha G; try constructor; inversion Ha; subst; inversion G; subst; [apply scaled_ok; assumption|apply IH; assumption]. Qed.
Lemma scaled_glen abs gs : length abs = length gs -> length (rescaled_grid abs gs) = length gs.
Proof. revert abs. induction gs as [|g gs IH]; intros [|[a b] abs] L; try discriminate; [reflexivity|]. cbn. f_equal. apply IH. cbn in L. lia. Qed.
Lemma scaled_at abs gs n : length abs = length gs -> (n < length gs)%nat -> nth n (rescaled_grid abs gs) [] = map (fun v => fst (nth n abs (1, 0)) * v + snd (nth n abs (1, 0))) (nth n gs []).
Proof. revert abs n. induction gs as [|g gs IH]; intros [|[a b] abs] n L Hn; try discriminate; [cbn in Hn; lia|]. destruct n as [|n]; [reflexivity|]. cbn. apply IH; cbn in *; lia. Qed.
Lemma scaled_xat abs xs n : length abs = length xs -> (n < length xs)%nat -> nth n (rescaled abs xs) 0 = fst (nth n abs (1, 0)) * nth n xs 0 + snd (nth n abs (1, 0)).
Proof. revert abs n. induction xs as [|g gs IH]; intros [|[a b] abs] n L Hn; try discriminate; [cbn in Hn; lia|]. destruct n as [|n]; [reflexivity|]. cbn. apply IH; cbn in *; lia. Qed.
Lemma scaled_on abs gs js : length abs = length gs -> on_grid (rescaled_grid abs gs) js -> on_grid gs js.
Proof. revert abs js. induction gs as [|g gs IH]; intros [|[a b] abs] js L O; try discriminate; inversion O; subst; [constructor|]. constructor; [rewrite map_length in *; assumption|]. apply (IH abs); [cbn in L; lia|assumption]. Qed.
Lemma other_units : forall abs gs values V values' V' coords coords' s xs fill, List.Forall grid_ok gs -> length abs = length gs -> List.Forall (fun p => 0 < fst p) abs ->
  grid_data gs values V -> grid_data (rescaled_grid abs gs) values' V' -> (forall js, on_grid gs js -> V' js = V js) ->
  test_points (length gs) s coords xs -> test_points (length gs) s coords' (fun i => rescaled abs (xs i)) ->
  same_interpolation gs values coords (rescaled_grid abs gs) values' coords' fill s (fun _ => True).
Proof.
  intros abs gs values V values' V' coords coords' s xs fill G L Ha D D' HV T T'. assert (G' := scaled_oks abs gs Ha G). assert (L' := scaled_glen abs gs L).
  apply (both_grids gs (rescaled_grid abs gs) values values' V V' coords coords' s xs (fun i => rescaled abs (xs i)) fill); try assumption.
  - rewrite L'. exact T'.
  - intros i Hi _. assert (Lx := proj1 (proj2 T i Hi)). rewrite (gval_ext _ G' V' V); [symmetry; apply gval_scaled; assumption| |intros js O; apply HV, (scaled_on abs); assumption].
    rewrite L'. apply (proj2 T' i Hi).
  - intros _ i Hi _. assert (Lx := proj1 (proj2 T i Hi)). unfold filled. rewrite L'.
    assert (K : forall n, (n < length gs)%nat -> (nth n (xs i) 0 <= nth 0 (nth n gs []) 0 <-> nth n (rescaled abs (xs i)) 0 <= nth 0 (nth n (rescaled_grid abs gs) []) 0) /\ (last (nth n gs []) 0 < nth n (xs i) 0 <-> last (nth n (rescaled_grid abs gs) []) 0 < nth n (rescaled abs (xs i)) 0)).
    { intros n Hn. rewrite scaled_at, scaled_xat by lia. assert (A : 0 < fst (nth n abs (1, 0))) by (rewrite Forall_forall in Ha; apply Ha, nth_In; lia). assert (Gn : grid_ok (nth n gs [])) by (rewrite Forall_forall in G; apply G, nth_In; lia).
      destruct Gn as [Gn _]. rewrite !last_nth, map_length, !scaled_nth by lia. split; split; intro; nra. }
    split; intros (n & Hn & Q); exists n; split; try exact Hn; destruct (K n Hn) as [K1 K2]; tauto.
Qed.
(** ** mirror images *)
Lemma mirrored_oks fs gs : List.Forall grid_ok gs -> List.Forall grid_ok (mirrored_grid fs gs).
Proof. revert fs. induction gs as [|g gs IH]; intros [|f fs] G; try constructor; inversion G; subst; [destruct f; [apply mirror_ok|]; assumption|apply IH; assumption]. Qed.
Lemma mirrored_glen fs gs : length fs = length gs -> length (mirrored_grid fs gs) = length gs.
Proof. revert fs. induction gs as [|g gs IH]; intros [|f fs] L; try discriminate; [reflexivity|]. cbn. f_equal. apply IH. cbn in L. lia. Qed.
Lemma mirror_image : forall fs gs values V values' V' coords coords' s xs, List.Forall grid_ok gs -> length fs = length gs ->
  grid_data gs values V -> grid_data (mirrored_grid fs gs) values' V' -> (forall js, on_grid (mirrored_grid fs gs) js -> V' js = V (mirrored_number fs gs js)) ->
  test_points (length gs) s coords xs -> test_points (length gs) s coords' (fun i => mirrored fs (xs i)) ->
  same_interpolation gs values coords (mirrored_grid fs gs) values' coords' None s (fun _ => True).
Proof.
  intros fs gs values V values' V' coords coords' s xs G L D D' HV T T'. assert (G' := mirrored_oks fs gs G). assert (L' := mirrored_glen fs gs L).
  apply (both_grids gs (mirrored_grid fs gs) values values' V V' coords coords' s xs (fun i => mirrored fs (xs i)) None); try assumption.
  - rewrite L'. exact T'.
  - intros i Hi _. assert (Lx := proj1 (proj2 T i Hi)). rewrite (gval_ext _ G' V' (fun js => V (mirrored_number fs gs js))); [symmetry; apply gval_mirrored; assumption| |exact HV].
    rewrite L'. apply (proj2 T' i Hi).
  - intros H. contradiction.
Qed.
(** ** another order of the axes *)
Lemma blend_affine gs is V : length is = length gs -> multilinear (length gs) (fun ys => blend is (fractions gs ys is) V).
Proof.
  revert is V. induction gs as [|g gs IH]; intros [|i is] V Li; try discriminate.
  - intros l1 l2 a b c L. cbn in L. lia.
  - intros l1 l2 a b c L. destruct l1 as [|x l1].
    + cbn [app]. rewrite !blend_lerp. apply lerp_affine.
    + cbn [app]. rewrite !blend_lerp. unfold lerp. assert (K := fun V => IH is V ltac:(cbn in Li; lia) l1 l2 a b c ltac:(cbn in L; lia)). cbn beta in K. rewrite !K. ring.
Qed.
Lemma blend_corner gs xs is V js : List.Forall grid_ok gs -> in_cell gs xs is -> corner is js -> V js = blend is (fractions gs (grid_point gs js) is) V.
Proof.
  intros G I. revert V js G. induction I as [|g gs x xs i is B I IH]; intros V js G C; inversion C as [|? j ? js0 C1 C2]; subst; [reflexivity|]. inversion G; subst. cbn [grid_point]. rewrite blend_lerp. unfold lerp.
  rewrite <- (IH (fun js => V (i :: js)) js0 ltac:(assumption) C2), <- (IH (fun js => V (S i :: js)) js0 ltac:(assumption) C2).
  destruct B as (B & _). assert (Q := gap g i ltac:(assumption) B). unfold part. destruct C1 as [->| ->].
  - rewrite Rminus_eq_0. unfold Rdiv. rewrite Rmult_0_l. ring.
  - field. lra.
Qed.
Section Order.
Variable D : nat.
Variable p : list nat.
Hypothesis Hp : Permutation p (seq 0 D).
Lemma p_len : length p = D.
Proof. rewrite (Permutation_length Hp). apply seq_length. Qed.
Lemma p_in q : In q p <-> (q < D)%nat.
Proof. split; intro H; [apply (Permutation_in _ Hp), in_seq in H; lia|apply (Permutation_in _ (Permutation_sym Hp)), in_seq; lia]. Qed.
Lemma p_nodup : NoDup p.
Proof. apply (Permutation_NoDup (Permutation_sym Hp)), seq_NoDup. Qed.
Lemma reordered_len {A} (d : A) l : length (reordered d p l) = D.
Proof. unfold reordered. rewrite map_length. apply p_len. Qed.
Lemma reordered_nth {A} (d : A) l n : (n < D)%nat -> nth n (reordered d p l) d = nth (nth n p O) l d.
Proof. intro H. unfold reordered. rewrite (nth_indep _ d (nth O l d)) by (rewrite map_length, p_len; exact H). apply (map_nth (fun q => nth q l d)). Qed.
Lemma nth_off {A} (d z z' : A) l1 l2 q : q <> length l1 -> nth q (l1 ++ z :: l2) d = nth q (l1 ++ z' :: l2) d.
Proof.
  intro H. destruct (lt_dec q (length l1)) as [L|L]; [rewrite !app_nth1 by exact L; reflexivity|]. rewrite !app_nth2 by lia. destruct (q - length l1)%nat eqn:E; [lia|]. reflexivity.
Qed.
Lemma multilinear_reordered F : multilinear D F -> multilinear D (fun ys => F (reordered 0 p ys)).
Proof.
  intros HF l1 l2 a b c L. assert (I : In (length l1) p) by (apply p_in; lia). destruct (in_split _ _ I) as (p1 & p2 & E). assert (N := p_nodup). rewrite E in N. apply NoDup_remove_2 in N.
  assert (R : forall z, reordered 0 p (l1 ++ z :: l2) = map (fun q => nth q (l1 ++ 0 :: l2) 0) p1 ++ z :: map (fun q => nth q (l1 ++ 0 :: l2) 0) p2).
  { intro z. unfold reordered. rewrite E, map_app. cbn [map]. f_equal; [|f_equal].
    - apply map_ext_in. intros q Hq. apply nth_off. intros ->. apply N, in_or_app. left. exact Hq.
    - rewrite app_nth2, Nat.sub_diag by lia. reflexivity.
    - apply map_ext_in. intros q Hq. apply nth_off. intros ->. apply N, in_or_app. right. exact Hq. }
  rewrite !R. apply HF. rewrite !map_length. assert (Q := p_len). rewrite E, app_length in Q. cbn in Q. exact Q.
Qed.
Lemma forall2_nth {A B} (P : A -> B -> Prop) a b l m : Forall2 P l m <-> length l = length m /\ forall n, (n < length l)%nat -> P (nth n l a) (nth n m b).
Proof.
  split.
  - intro H. split; [exact (Forall2_length H)|]. induction H; intros n Hn; [cbn in Hn; lia|]. destruct n; [assumption|]. apply IHForall2. cbn in Hn. lia.
  - revert m. induction l as [|x l IH]; intros [|y m] [L H]; try discriminate; constructor; [apply (H O); cbn; lia|]. apply IH. split; [cbn in L; lia|]. intros n Hn. apply (H (S n)). cbn. lia.
Qed.
Lemma forall2_reordered {A B} (P : A -> B -> Prop) a b l m : length l = D -> Forall2 P l m -> Forall2 P (reordered a p l) (reordered b p m).
Proof.
  intros L H. apply (forall2_nth P a b) in H. destruct H as [H1 H2]. apply (forall2_nth P a b). rewrite !reordered_len. split; [reflexivity|]. intros n Hn. rewrite !reordered_nth by exact Hn. apply H2. rewrite L. apply p_in, nth_In. rewrite p_len. exact Hn.
Qed.
Lemma grid_point_nth gs js n : length js = length gs -> (n < length gs)%nat -> nth n (grid_point gs js) 0 = nth (nth n js O) (nth n gs []) 0.
Proof. revert js n. induction gs as [|g gs IH]; intros [|j js] n L Hn; try discriminate; [cbn in Hn; lia|]. destruct n as [|n]; [reflexivity|]. cbn. apply IH; cbn in *; lia. Qed.
Lemma reordered_point gs js : length gs = D -> length js = D -> reordered 0 p (grid_point gs js) = grid_point (reordered [] p gs) (reordered O p js).
Proof.
  intros Lg Lj. assert (L : length (grid_point (reordered [] p gs) (reordered O p js)) = D) by (rewrite point_len; rewrite !reordered_len; reflexivity).
  apply nth_ext with (d := 0) (d' := 0); rewrite reordered_len; [symmetry; exact L|]. intros n Hn. assert (Q : (nth n p O < D)%nat) by (apply p_in, nth_In; rewrite p_len; exact Hn).
  rewrite reordered_nth by exact Hn. rewrite !grid_point_nth by (rewrite ?reordered_len; lia). rewrite !reordered_nth by exact Hn. reflexivity.
Qed.
Lemma in_cell_nth gs xs is : in_cell gs xs is <-> length xs = length gs /\ length is = length gs /\ forall n, (n < length gs)%nat -> belongs (nth n gs []) (nth n xs 0) (nth n is O).
Proof.
  split.
  - intro H. induction H as [|g gs x xs i is B H IH]; [split; [reflexivity|split; [reflexivity|intros n Hn; cbn in Hn; lia]]|]. destruct IH as (I1 & I2 & I3). split; [cbn; lia|]. split; [cbn; lia|]. intros [|n] Hn; [exact B|apply I3; cbn in Hn; lia].
  - revert xs is. induction gs as [|g gs IH]; intros [|x xs] [|i is] (L1 & L2 & H); try discriminate; constructor; [apply (H O); cbn; lia|]. apply IH. cbn in L1, L2. split; [lia|]. split; [lia|]. intros n Hn. apply (H (S n)). cbn. lia.
Qed.
Lemma gval_reordered gs V xs : length gs = D -> List.Forall grid_ok gs -> length xs = D -> 
  gval gs (fun js => V (reordered O p js)) xs = gval (reordered [] p gs) V (reordered 0 p xs).
Proof.
  intros Lg G Lx. set (gs' := reordered [] p gs). assert (Lg' : length gs' = D) by apply reordered_len.
  assert (G' : List.Forall grid_ok gs').
  { apply Forall_forall. intros g Hg. unfold gs', reordered in Hg. apply in_map_iff in Hg. destruct Hg as (q & <- & Hq). rewrite Forall_forall in G. apply G, nth_In. rewrite Lg. apply p_in, Hq. }
  assert (I := cells_in gs xs G ltac:(lia)). set (is := cells gs xs) in *. set (is' := reordered O p is).
  assert (Li : length is = D) by (apply in_cell_nth in I; lia).
  assert (I' : in_cell gs' (reordered 0 p xs) is').
  { apply in_cell_nth. unfold gs', is'. rewrite !reordered_len. do 2 (split; [reflexivity|]). intros n Hn. rewrite !reordered_nth by exact Hn. apply in_cell_nth in I. apply I. rewrite Lg. apply p_in, nth_In. rewrite p_len. exact Hn. }
  set (F := fun ys => blend is' (fractions gs' ys is') V).
  assert (HF : multilinear D F).
  { unfold F. rewrite <- Lg'. apply blend_affine. apply in_cell_nth in I'. lia. }
  assert (HV : forall js, corner is' js -> V js = F (grid_point gs' js)).
  { intros js C. exact (blend_corner gs' _ is' V js G' I' C). }
  rewrite (gval_multilinear gs' V (reordered 0 p xs) is' F); try assumption; [|rewrite reordered_len; lia|rewrite Lg'; exact HF].
  apply (gval_multilinear gs _ xs is (fun ys => F (reordered 0 p ys))); try assumption; [lia|rewrite Lg; apply multilinear_reordered, HF|].
  intros js C. rewrite reordered_point; [|exact Lg|rewrite <- Li; symmetry; exact (Forall2_length C)]. apply HV. apply (forall2_reordered (fun i j => j = i \/ j = S i)); [exact Li|exact C].
Qed.
End Order.
Lemma axes_order : forall gs p values V values' V' coords coords' s xs fill, List.Forall grid_ok gs -> Permutation p (seq 0 (length gs)) ->
  grid_data gs values V -> grid_data (reordered [] p gs) values' V' -> (forall js, on_grid gs js -> V js = V' (reordered O p js)) ->
  test_points (length gs) s coords xs -> test_points (length gs) s coords' (fun i => reordered 0 p (xs i)) ->
  same_interpolation gs values coords (reordered [] p gs) values' coords' fill s (fun _ => True).
Proof.
  intros gs p values V values' V' coords coords' s xs fill G Hp D D' HV T T'. set (gs' := reordered [] p gs) in *. assert (L' : length gs' = length gs) by (apply (reordered_len (length gs) p Hp)).
  assert (G' : List.Forall grid_ok gs').
  { apply Forall_forall. intros g Hg. unfold gs', reordered in Hg. apply in_map_iff in Hg. destruct Hg as (q & <- & Hq). rewrite Forall_forall in G. apply G, nth_In. apply (p_in _ p Hp), Hq. }
  apply (both_grids gs gs' values values' V V' coords coords' s xs (fun i => reordered 0 p (xs i)) fill); try assumption.
  - rewrite L'. exact T'.
  - intros i Hi _. assert (Lx := proj1 (proj2 T i Hi)). rewrite (gval_ext gs G V (fun js => V' (reordered O p js)) (xs i) Lx HV). apply (gval_reordered (length gs) p Hp); try reflexivity; assumption.
  - intros _ i Hi _. unfold filled. rewrite L'. split; intros (n & Hn & Q).
    + assert (I : In n p) by (apply (p_in _ p Hp), Hn). destruct (In_nth p n O I) as (m & Hm & Em). rewrite (p_len _ p Hp) in Hm. exists m. split; [exact Hm|]. unfold gs'. rewrite !(reordered_nth _ p Hp) by exact Hm. rewrite Em. exact Q.
    + exists (nth n p O). split; [apply (p_in _ p Hp), nth_In; rewrite (p_len _ p Hp); exact Hn|]. unfold gs' in Q. rewrite !(reordered_nth _ p Hp) in Q by exact Hn. exact Q.
Qed.
