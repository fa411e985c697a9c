(** * The same data on another grid *)
From Coq Require Import Reals List Bool Arith ZArith Lra Lia Permutation.
From Verif Require Import Num CoreOps Inst CoreFlux M_units M_kepler M_tensor M_simple M_ttv M_limbdark M_interpolated M_grid
  Spec_array Spec_light Spec_grid Spec_gridacc Spec_regrid L_fl L_real L_shapeS L_grid1 L_grid2 L_grid3 L_grid4 L_gridacc.
Import ListNotations.
Open Scope R_scope.
Local Notation length := List.length.

(** ** one axis *)
Lemma lerp_at g x u i : grid_ok g -> belongs g x i -> lerp g x (cellof g x) u = lerp g x i u.
Proof. intros G B. apply lerp_any; [exact G|apply cellof_belongs, G|exact B]. Qed.
Lemma lerp_affine g i u c a b : lerp g ((1 - c) * a + c * b) i u = (1 - c) * lerp g a i u + c * lerp g b i u.
Proof. unfold lerp, part, Rdiv. ring. Qed.
Lemma part_mix g x i : grid_ok g -> (S i < length g)%nat -> x = (1 - part g x i) * nth i g 0 + part g x i * nth (S i) g 0.
Proof. intros G L. assert (Q := gap g i G L). unfold part. field. lra. Qed.
Lemma nth_lt g i j : grid_ok g -> (i < length g)%nat -> (j < length g)%nat -> nth i g 0 < nth j g 0 -> (i < j)%nat.
Proof. intros G Hi Hj H. destruct (le_lt_dec j i) as [L|L]; [|exact L]. assert (Q := incr_le g j i G L Hi). lra. Qed.
(** an interval of the finer grid lies in an interval of the coarser one *)
Lemma finer_cell g g' c : grid_ok g -> grid_ok g' -> finer g g' -> (S c < length g')%nat ->
  exists i, (S i < length g)%nat /\ (i = 0%nat \/ nth i g 0 <= nth c g' 0) /\ (S (S i) = length g \/ nth (S c) g' 0 <= nth (S i) g 0).
Proof.
  intros G G' F Hc. exists (cellof g (nth (S c) g' 0)). destruct (cellof_belongs g (nth (S c) g' 0) G) as (B1 & B2 & B3). split; [exact B1|]. split; [|exact B3].
  set (i := cellof g (nth (S c) g' 0)) in *. destruct (Nat.eq_dec i 0) as [E|E]; [left; exact E|]. right. destruct (Rle_dec (nth i g 0) (nth c g' 0)) as [L|L]; [exact L|]. exfalso.
  assert (Lt : nth i g 0 < nth (S c) g' 0).
  { assert (C := cnt_spec g (nth (S c) g' 0) (proj2 G) i ltac:(lia)). apply C. assert (Ic : i = Nat.min (cnt g (nth (S c) g' 0) - 1) (length g - 2)) by reflexivity. lia. }
  destruct (In_nth g' (nth i g 0) 0 (F _ (nth_In (n := i) g 0 ltac:(lia)))) as (q & Hq & Eq).
  assert (Q1 := nth_lt g' c q G' ltac:(lia) Hq ltac:(lra)). assert (Q2 := nth_lt g' q (S c) G' Hq Hc ltac:(lra)). lia.
Qed.
Lemma finer_lerp g g' x u : grid_ok g -> grid_ok g' -> finer g g' ->
  lerp g' x (cellof g' x) (fun j => lerp g (nth j g' 0) (cellof g (nth j g' 0)) u) = lerp g x (cellof g x) u.
Proof.
  intros G G' F. set (c := cellof g' x). destruct (cellof_belongs g' x G') as (C1 & C2 & C3). fold c in C1, C2, C3.
  destruct (finer_cell g g' c G G' F C1) as (i & I1 & I2 & I3). assert (Gp := gap g' c G' C1).
  unfold lerp at 1. rewrite (lerp_at g (nth c g' 0) u i G), (lerp_at g (nth (S c) g' 0) u i G); [|split; [exact I1|split; [|exact I3]]|split; [exact I1|split; [exact I2|]]].
  - rewrite <- lerp_affine, <- (part_mix g' x c G' C1). symmetry. apply lerp_at; [exact G|]. split; [exact I1|]. split.
    + destruct (Nat.eq_dec i 0) as [E|E]; [left; exact E|right]. destruct I2 as [I2|I2]; [contradiction|]. destruct C2 as [C2|C2]; [|lra].
      exfalso. rewrite C2 in *. destruct (In_nth g' (nth 0 g 0) 0 (F _ (nth_In (n := 0) g 0 ltac:(lia)))) as (q & Hq & Eq).
      assert (Q0 := incr_le g' 0 q G' ltac:(lia) Hq). assert (Q1 := proj2 G 0%nat i ltac:(lia) ltac:(lia)). lra.
    + destruct I3 as [I3|I3]; [left; exact I3|]. destruct (Nat.eq_dec (S (S i)) (length g)) as [E|E]; [left; exact E|right]. destruct C3 as [C3|C3]; [|lra].
      exfalso. destruct (In_nth g' (nth (length g - 1) g 0) 0 (F _ (nth_In (n := (length g - 1)%nat) g 0 ltac:(lia)))) as (q & Hq & Eq).
      assert (Q0 := incr_le g' q (S c) G' ltac:(lia) ltac:(lia)). assert (Q1 := proj2 G (S i) (length g - 1)%nat ltac:(lia) ltac:(lia)). lra.
  - destruct I2 as [I2|I2]; [left; exact I2|right; lra].
  - destruct I3 as [I3|I3]; [left; exact I3|right; lra].
Qed.
Lemma run_lerp k g g' x u : grid_ok g -> grid_ok g' -> run_of k g g' -> nth 0 g' 0 <= x <= last g' 0 ->
  lerp g' x (cellof g' x) (fun j => u (k + j)%nat) = lerp g x (cellof g x) u.
Proof.
  intros G G' [R1 R2] [W1 W2]. set (c := cellof g' x). destruct (cellof_belongs g' x G') as (C1 & C2 & C3). fold c in C1, C2, C3.
  rewrite (lerp_at g x u (k + c) G).
  - unfold lerp, part. rewrite !R2 by lia. replace (k + S c)%nat with (S (k + c)) by lia. reflexivity.
  - split; [lia|]. rewrite last_nth in W2. split; right.
    + rewrite <- R2 by lia. destruct C2 as [->|C2]; [exact W1|exact C2].
    + replace (S (k + c))%nat with (k + S c)%nat by lia. rewrite <- R2 by lia. destruct C3 as [C3|C3]; [|exact C3]. replace (length g' - 1)%nat with (S c) in W2 by lia. exact W2.
Qed.
Lemma scaled_ok a b g : 0 < a -> grid_ok g -> grid_ok (map (fun v => a * v + b) g).
Proof.
  intros Ha [G1 G2]. split; [rewrite map_length; exact G1|]. intros p q L1 L2. rewrite map_length in L2. 
  rewrite !(nth_indep (map _ g) 0 (a * 0 + b)) by (rewrite map_length; lia). rewrite !(map_nth (fun v => a * v + b)). assert (Q := G2 p q L1 L2). nra.
Qed.
Lemma scaled_nth a b g j : (j < length g)%nat -> nth j (map (fun v => a * v + b) g) 0 = a * nth j g 0 + b.
Proof. intro H. rewrite (nth_indep (map _ g) 0 (a * 0 + b)) by (rewrite map_length; lia). apply (map_nth (fun v => a * v + b)). Qed.
Lemma scaled_lerp a b g x u : 0 < a -> grid_ok g -> lerp (map (fun v => a * v + b) g) (a * x + b) (cellof (map (fun v => a * v + b) g) (a * x + b)) u = lerp g x (cellof g x) u.
Proof.
  intros Ha G. destruct (cellof_belongs g x G) as (B1 & B2 & B3). set (i := cellof g x) in *. rewrite (lerp_at (map (fun v => a * v + b) g) (a * x + b) u i (scaled_ok a b g Ha G)).
  - assert (Q := gap g i G B1). unfold lerp. assert (E : part (map (fun v => a * v + b) g) (a * x + b) i = part g x i) by (unfold part; rewrite !scaled_nth by lia; replace (a * x + b - (a * nth i g 0 + b)) with (a * (x - nth i g 0)) by ring; replace (a * nth (S i) g 0 + b - (a * nth i g 0 + b)) with (a * (nth (S i) g 0 - nth i g 0)) by ring; field; split; lra). rewrite E. reflexivity.
  - unfold belongs. rewrite map_length. split; [exact B1|]. rewrite !scaled_nth by lia. split; [destruct B2; [left; assumption|right; nra]|destruct B3; [left; assumption|right; nra]].
Qed.
Lemma mirror_nth g j : (j < length g)%nat -> nth j (rev (map Ropp g)) 0 = - nth (length g - 1 - j) g 0.
Proof.
  intro H. rewrite rev_nth by (rewrite map_length; exact H). rewrite map_length. rewrite (nth_indep (map Ropp g) 0 (- 0)) by (rewrite map_length; lia). rewrite map_nth. replace (length g - S j)%nat with (length g - 1 - j)%nat by lia. reflexivity.
Qed.
Lemma mirror_len g : length (rev (map Ropp g)) = length g.
Proof. rewrite rev_length, map_length. reflexivity. Qed.
Lemma mirror_ok g : grid_ok g -> grid_ok (rev (map Ropp g)).
Proof.
  intros [G1 G2]. split; [rewrite mirror_len; exact G1|]. rewrite mirror_len. intros p q L1 L2. rewrite !mirror_nth by lia. assert (Q := G2 (length g - 1 - q)%nat (length g - 1 - p)%nat ltac:(lia) ltac:(lia)). lra.
Qed.
Lemma mirror_lerp g x u : grid_ok g -> lerp (rev (map Ropp g)) (- x) (cellof (rev (map Ropp g)) (- x)) (fun j => u (length g - 1 - j)%nat) = lerp g x (cellof g x) u.
Proof.
  intro G. destruct (cellof_belongs g x G) as (B1 & B2 & B3). set (i := cellof g x) in *. rewrite (lerp_at (rev (map Ropp g)) (- x) _ (length g - 2 - i)%nat (mirror_ok g G)).
  - assert (Q := gap g i G B1). unfold lerp, part. rewrite !mirror_nth by lia. replace (length g - 1 - (length g - 2 - i))%nat with (S i) by lia. replace (length g - 1 - S (length g - 2 - i))%nat with i by lia. field. lra.
  - unfold belongs. rewrite mirror_len. split; [lia|]. rewrite !mirror_nth by lia. replace (length g - 1 - (length g - 2 - i))%nat with (S i) by lia. replace (length g - 1 - S (length g - 2 - i))%nat with i by lia.
    split; [destruct B3; [left; lia|right; lra]|destruct B2; [left; lia|right; lra]].
Qed.

(** ** all axes *)
Lemma lerp_ext g x i u v : u i = v i -> u (S i) = v (S i) -> lerp g x i u = lerp g x i v.
Proof. intros E1 E2. unfold lerp. rewrite E1, E2. reflexivity. Qed.
Lemma gval_lerp gs V g x i xs : gval gs (fun js => lerp g x i (fun j => V j js)) xs = lerp g x i (fun j => gval gs (V j) xs).
Proof. unfold lerp. exact (gval_lin gs (V i) (V (S i)) (1 - part g x i) (part g x i) xs). Qed.
Lemma gval_finer gs gs' : List.Forall grid_ok gs -> List.Forall grid_ok gs' -> Forall2 finer gs gs' -> forall V xs, length xs = length gs ->
  gval gs' (fun js => gval gs V (grid_point gs' js)) xs = gval gs V xs.
Proof.
  intros G G' F. revert G G'. induction F as [|g g' gs gs' F FF IH]; intros G G' V xs L; [destruct xs; [reflexivity|discriminate]|].
  inversion G; subst. inversion G'; subst. destruct xs as [|x xs]; [discriminate|]. rewrite !gval_cons. rewrite <- (finer_lerp g g' x) by assumption.
  assert (K : forall j, gval gs' (fun js => gval (g :: gs) V (grid_point (g' :: gs') (j :: js))) xs = lerp g (nth j g' 0) (cellof g (nth j g' 0)) (fun j0 => gval gs (fun js => V (j0 :: js)) xs)).
  { intro j. cbn [grid_point]. 
    change (gval gs' (fun js => lerp g (nth j g' 0) (cellof g (nth j g' 0)) (fun j0 => gval gs (fun js0 => V (j0 :: js0)) (grid_point gs' js))) xs = lerp g (nth j g' 0) (cellof g (nth j g' 0)) (fun j0 => gval gs (fun js => V (j0 :: js)) xs)).
    rewrite (gval_lerp gs' (fun j0 js => gval gs (fun js0 => V (j0 :: js0)) (grid_point gs' js))). apply lerp_ext; apply IH; try assumption; cbn in L; lia. }
  apply lerp_ext; apply K.
Qed.
Lemma gval_run ks gs gs' : runs ks gs gs' -> List.Forall grid_ok gs -> List.Forall grid_ok gs' -> forall V xs, within gs' xs ->
  gval gs' (fun js => V (plus_each ks js)) xs = gval gs V xs.
Proof.
  intro H. induction H as [|k ks g gs g' gs' R RR IH]; intros G G' V xs W; inversion W; subst; [reflexivity|]. inversion G; subst. inversion G'; subst. rewrite !gval_cons.
  match goal with Hw : nth 0 g' 0 <= ?y <= last g' 0 |- _ => rewrite <- (run_lerp k g g' y) by assumption end.
  apply lerp_ext; cbn [plus_each]; apply (IH ltac:(assumption) ltac:(assumption) (fun js => V (_ :: js))); assumption.
Qed.
Lemma gval_scaled abs gs : length abs = length gs -> List.Forall (fun p => 0 < fst p) abs -> List.Forall grid_ok gs -> forall V xs, length xs = length gs ->
  gval (rescaled_grid abs gs) V (rescaled abs xs) = gval gs V xs.
Proof.
  revert abs. induction gs as [|g gs IH]; intros abs L Ha G V xs Lx; destruct abs as [|[a b] abs]; try discriminate; destruct xs as [|x xs]; try discriminate; [reflexivity|].
  inversion Ha; subst. inversion G; subst. cbn [rescaled_grid rescaled]. rewrite !gval_cons. rewrite (scaled_lerp a b g x) by assumption.
  apply lerp_ext; apply IH; try assumption; cbn in *; lia.
Qed.
Lemma gval_mirrored fs gs : length fs = length gs -> List.Forall grid_ok gs -> forall V xs, length xs = length gs ->
  gval (mirrored_grid fs gs) (fun js => V (mirrored_number fs gs js)) (mirrored fs xs) = gval gs V xs.
Proof.
  revert fs. induction gs as [|g gs IH]; intros fs L G V xs Lx; destruct fs as [|f fs]; try discriminate; destruct xs as [|x xs]; try discriminate; [reflexivity|].
  inversion G; subst. cbn [mirrored_grid mirrored]. rewrite !gval_cons. cbn [mirrored_number].
  assert (I : forall j, gval (mirrored_grid fs gs) (fun js => V (j :: mirrored_number fs gs js)) (mirrored fs xs) = gval gs (fun js => V (j :: js)) xs) by (intro j; apply (IH fs ltac:(cbn in L; lia) ltac:(assumption) (fun js => V (j :: js)) xs); cbn in Lx; lia).
  destruct f.
  - rewrite <- (mirror_lerp g x) by assumption. apply lerp_ext; apply I.
  - apply lerp_ext; apply I.
Qed.
