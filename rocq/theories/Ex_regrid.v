(** * Examples for C110 *)
From Coq Require Import Reals List Bool Arith ZArith Lra Lia Permutation.
From Verif Require Import Num CoreOps Inst CoreFlux M_units M_kepler M_tensor M_simple M_ttv M_limbdark M_interpolated M_grid
  Spec_array Spec_light Spec_grid Spec_gridacc Spec_regrid L_fl L_real L_shapeS L_grid1 L_grid2 L_grid3 L_grid4 L_gridacc L_regrid L_regrid2.
Import ListNotations.
Open Scope R_scope.
Local Notation length := List.length.

Definition ex_V (js : list nat) : R := INR (nth 0 js O) * 10 + INR (nth 1 js O).
(** a table of m x n entries *)
Definition table2 (m n : nat) (f : nat -> nat -> R) : tens := mkA (Ok [n; m]) (fun i => Fin (f (i 1%nat) (i O))).
Lemma table2_data g h f V : (forall a b, V [a; b] = f a b) -> grid_data [g; h] (table2 (length g) (length h) f) V.
Proof.
  intro E. split; [reflexivity|]. intros js H. inversion H as [|? j0 ? js0 H0 H1]; subst. inversion H1 as [|? j1 ? js1 H2 H3]; subst. inversion H3; subst. rewrite E. reflexivity.
Qed.
(** four points with two coordinates *)
Definition points4 (f : nat -> nat -> R) : tens := mkA (Ok [2; 4]%nat) (fun i => Fin (f (i 1%nat) (i O))).
Lemma points4_ok f xs : (forall i : idx, xs i = [f (i O) O; f (i O) 1%nat]) -> test_points 2 [4%nat] (points4 f) xs.
Proof.
  intro E. split; [reflexivity|]. intros i Hi. rewrite E. split; [reflexivity|]. intros n Hn. destruct n as [|[|n]]; [reflexivity|reflexivity|lia].
Qed.
Ltac gridok := repeat constructor; intros a b H1 H2; cbn in H2; do 6 (try destruct b as [|b]); try lia; do 6 (try destruct a as [|a]); try lia; cbn; lra.

Lemma order_example : List.Forall grid_ok ex_grid /\ Permutation [1; 0]%nat (seq 0 (length ex_grid)) /\ reordered [] [1; 0]%nat ex_grid = [[0; 2]; [0; 1; 3]] /\
  grid_data ex_grid (table2 3 2 (fun a b => INR a * 10 + INR b)) ex_V /\ grid_data (reordered [] [1; 0]%nat ex_grid) (table2 2 3 (fun b a => INR a * 10 + INR b)) (fun js => ex_V (rev js)) /\
  (forall js, on_grid ex_grid js -> ex_V js = ex_V (rev (reordered O [1; 0]%nat js))) /\
  test_points (length ex_grid) [4%nat] (points4 (fun m n => match n with O => INR m / 2 | _ => 1 end)) (fun i => [INR (i O) / 2; 1]) /\
  test_points (length ex_grid) [4%nat] (points4 (fun m n => match n with O => 1 | _ => INR m / 2 end)) (fun i => reordered 0 [1; 0]%nat [INR (i O) / 2; 1]).
Proof.
  split; [exact ex_grid_ok|]. split; [apply perm_swap|]. split; [reflexivity|]. split; [apply (table2_data [0; 1; 3] [0; 2]); reflexivity|]. split; [apply (table2_data [0; 2] [0; 1; 3]); reflexivity|].
  split. { intros js H. inversion H as [|? j0 ? js0 H0 H1]; subst. inversion H1 as [|? j1 ? js1 H2 H3]; subst. inversion H3; subst. reflexivity. }
  split; apply points4_ok; reflexivity.
Qed.
(** three new points, two of them outside of the old grid *)
Definition ex_fine : list (list R) := [[0; 1 / 2; 1; 3; 4]; [-1; 0; 2]].
Definition ex_mesh : tens := mkA (Ok [2; 3; 5]%nat) (fun i => Fin (match i O with O => nth (i 2%nat) [0; 1 / 2; 1; 3; 4] 0 | _ => nth (i 1%nat) [-1; 0; 2] 0 end)).
Lemma refine_example : List.Forall grid_ok ex_grid /\ List.Forall grid_ok ex_fine /\ Forall2 finer ex_grid ex_fine /\ Forall2 same_ends ex_grid [[0; 1 / 2; 1; 3]; [0; 2]] /\
  grid_data ex_grid (table2 3 2 (fun a b => INR a * 10 + INR b)) ex_V /\ all_points ex_fine ex_mesh /\ twf ex_mesh /\
  exists values', regular_grid_interp (map (map Fin) ex_grid) (table2 3 2 (fun a b => INR a * 10 + INR b)) ex_mesh None = Ok values'.
Proof.
  split; [exact ex_grid_ok|]. split; [gridok|].
  split. { apply Forall2_cons; [|apply Forall2_cons; [|apply Forall2_nil]]; intros v H; cbn in *; tauto. }
  split; [apply Forall2_cons; [|apply Forall2_cons; [|apply Forall2_nil]]; split; reflexivity|]. split; [apply (table2_data [0; 1; 3] [0; 2]); reflexivity|].
  assert (A : all_points ex_fine ex_mesh).
  { split; [reflexivity|]. intros js n H Hn. inversion H as [|? j0 ? js0 H0 H1]; subst. inversion H1 as [|? j1 ? js1 H2 H3]; subst. inversion H3; subst. destruct n as [|[|n]]; [reflexivity|reflexivity|cbn in Hn; lia]. }
  assert (W : twf ex_mesh). { intros s E i j H. cbn in *. injection E as <-. rewrite (H 0%nat), (H 1%nat), (H 2%nat) by (cbn; lia). reflexivity. }
  split; [exact A|]. split; [exact W|].
  destruct (grid_value ex_grid (table2 3 2 (fun a b => INR a * 10 + INR b)) ex_V ex_mesh [3; 5]%nat (fun i => [nth (i 1%nat) [0; 1 / 2; 1; 3; 4] 0; nth (i O) [-1; 0; 2] 0])) as (Y & E & _).
  - exact ex_grid_ok.
  - apply (table2_data [0; 1; 3] [0; 2]). reflexivity.
  - split; [reflexivity|]. intros i Hi. split; [reflexivity|]. intros n Hn. destruct n as [|[|n]]; [reflexivity|reflexivity|cbn in Hn; lia].
  - exists Y. exact E.
Qed.
Lemma cut_grid_example : List.Forall grid_ok ex_grid /\ List.Forall grid_ok [[1; 3]; [0; 2]] /\ runs [1; 0]%nat ex_grid [[1; 3]; [0; 2]] /\
  grid_data ex_grid (table2 3 2 (fun a b => INR a * 10 + INR b)) ex_V /\ grid_data [[1; 3]; [0; 2]] (table2 2 2 (fun a b => INR (S a) * 10 + INR b)) (fun js => ex_V (plus_each [1; 0]%nat js)) /\
  within [[1; 3]; [0; 2]] [3 / 2; 1] /\ ~ filled [[1; 3]; [0; 2]] [3 / 2; 1].
Proof.
  split; [exact ex_grid_ok|]. split; [gridok|].
  split. { apply runs_cons; [|apply runs_cons; [|apply runs_nil]]; (split; [cbn; lia|]; intros j H; cbn in H; do 3 (try destruct j as [|j]); try lia; reflexivity). }
  split; [apply (table2_data [0; 1; 3] [0; 2]); reflexivity|]. split; [apply (table2_data [1; 3] [0; 2]); intros [|a] [|b]; reflexivity|].
  split. { repeat (constructor; [cbn; lra|]). constructor. }
  intros ([|[|n]] & Hn & H); cbn in *; [lra|lra|lia].
Qed.
Lemma units_example : List.Forall grid_ok ex_grid /\ length [(24, 0); (1, 5)] = length ex_grid /\ List.Forall (fun p => 0 < fst p) [(24, 0); (1, 5)] /\
  grid_data ex_grid (table2 3 2 (fun a b => INR a * 10 + INR b)) ex_V /\ grid_data (rescaled_grid [(24, 0); (1, 5)] ex_grid) (table2 3 2 (fun a b => INR a * 10 + INR b)) ex_V /\
  test_points (length ex_grid) [4%nat] (points4 (fun m n => match n with O => INR m / 2 | _ => 1 end)) (fun i => [INR (i O) / 2; 1]) /\
  test_points (length ex_grid) [4%nat] (points4 (fun m n => match n with O => 24 * (INR m / 2) + 0 | _ => 1 * 1 + 5 end)) (fun i => rescaled [(24, 0); (1, 5)] [INR (i O) / 2; 1]).
Proof.
  split; [exact ex_grid_ok|]. split; [reflexivity|]. split; [repeat constructor; cbn; lra|]. split; [apply (table2_data [0; 1; 3] [0; 2]); reflexivity|].
  split; [exact (table2_data (map (fun v => 24 * v + 0) [0; 1; 3]) (map (fun v => 1 * v + 5) [0; 2]) (fun a b => INR a * 10 + INR b) ex_V (fun _ _ => eq_refl))|].
  split; apply points4_ok; reflexivity.
Qed.
Lemma mirror_example : List.Forall grid_ok ex_grid /\ mirrored_grid [true; false] ex_grid = [[Ropp 3; Ropp 1; Ropp 0]; [0; 2]] /\
  grid_data ex_grid (table2 3 2 (fun a b => INR a * 10 + INR b)) ex_V /\
  grid_data (mirrored_grid [true; false] ex_grid) (table2 3 2 (fun a b => INR (2 - a) * 10 + INR b)) (fun js => ex_V (mirrored_number [true; false] ex_grid js)) /\
  test_points (length ex_grid) [4%nat] (points4 (fun m n => match n with O => INR m / 2 | _ => 1 end)) (fun i => [INR (i O) / 2; 1]) /\
  test_points (length ex_grid) [4%nat] (points4 (fun m n => match n with O => - (INR m / 2) | _ => 1 end)) (fun i => mirrored [true; false] [INR (i O) / 2; 1]).
Proof.
  split; [exact ex_grid_ok|]. split; [reflexivity|]. split; [apply (table2_data [0; 1; 3] [0; 2]); reflexivity|].
  split; [exact (table2_data [Ropp 3; Ropp 1; Ropp 0] [0; 2] (fun a b => INR (2 - a) * 10 + INR b) (fun js => ex_V (mirrored_number [true; false] ex_grid js)) (fun _ _ => eq_refl))|].
  split; apply points4_ok; reflexivity.
Qed.
(** fill_value breaks the symmetry: the lower end of an axis is filled, the upper is not *)
Lemma mirror_fill : ~ (forall fs gs values V values' V' coords coords' s xs fill, List.Forall grid_ok gs -> length fs = length gs ->
  grid_data gs values V -> grid_data (mirrored_grid fs gs) values' V' -> (forall js, on_grid (mirrored_grid fs gs) js -> V' js = V (mirrored_number fs gs js)) ->
  test_points (length gs) s coords xs -> test_points (length gs) s coords' (fun i => mirrored fs (xs i)) ->
  same_interpolation gs values coords (mirrored_grid fs gs) values' coords' fill s (fun _ => True)).
Proof.
  intro H.
  assert (G : List.Forall grid_ok [[0; 1]]) by gridok. assert (G' : List.Forall grid_ok [[Ropp 1; Ropp 0]]) by gridok.
  set (v := mkA (Ok [2%nat]) (fun i : idx => Fin 7)). assert (D : forall g : list R, length g = 2%nat -> grid_data [g] v (fun _ => 7)) by (intros g Lg; split; [cbn; rewrite Lg; reflexivity|reflexivity]).
  assert (T : forall z, test_points 1 [] (mkA (Ok [1%nat]) (fun i : idx => Fin z)) (fun _ => [z])) by (intro z; split; [reflexivity|]; intros i _; split; [reflexivity|]; intros [|n] Hn; [reflexivity|lia]).
  destruct (H [true] [[0; 1]] v (fun _ => 7) v (fun _ => 7) _ _ [] (fun _ => [0]) (Some NaN) G eq_refl (D [0; 1] eq_refl) (D [Ropp 1; Ropp 0] eq_refl) ltac:(reflexivity) (T 0) (T (Ropp 0))) as (Y & Y' & E & E' & _ & _ & V).
  destruct (grid_fill [[0; 1]] v (fun _ => 7) _ [] _ NaN G (D [0; 1] eq_refl) (T 0)) as (Y1 & Z1 & A & _ & _ & _ & B).
  destruct (grid_fill [[Ropp 1; Ropp 0]] v (fun _ => 7) _ [] _ NaN G' (D [Ropp 1; Ropp 0] eq_refl) (T (Ropp 0))) as (Y2 & Z2 & A' & _ & AZ & _ & B').
  destruct (grid_value [[Ropp 1; Ropp 0]] v (fun _ => 7) _ [] _ G' (D [Ropp 1; Ropp 0] eq_refl) (T (Ropp 0))) as (Z3 & A3 & _ & V3). rewrite A3 in AZ. injection AZ as <-.
  rewrite E in A. injection A as <-. cbn [mirrored_grid map] in E'. cbn in E', A'. rewrite E' in A'. injection A' as <-.
  assert (I : inside [] ix0) by (intros k Hk; cbn in Hk; lia). specialize (V ix0 I Logic.I). specialize (B ix0 I). specialize (B' ix0 I). specialize (V3 ix0 I).
  rewrite (proj1 B) in V. 2:{ exists O. split; [cbn; lia|]. left. cbn. lra. }
  rewrite (proj2 B'), V3 in V. 2:{ intros ([|n] & Hn & Q); cbn in *; [lra|lia]. } discriminate V.
Qed.
