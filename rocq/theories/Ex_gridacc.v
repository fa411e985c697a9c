(** * Accuracy of interpolation on a grid: example *)
From Coq Require Import Reals List Bool Arith ZArith Lra Lia.
From Coquelicot Require Import Coquelicot.
From Verif Require Import Num CoreOps Inst M_tensor Spec_array Spec_light Spec_grid Spec_gridacc L_grid4.
Import ListNotations.
Open Scope R_scope.
Local Notation length := List.length.

Definition curved (l : list R) : R := nth 0 l 0 * nth 0 l 0 + 3 * nth 1 l 0.
Definition curved_values : tens := mkA (Ok [2; 3]%nat) (fun i => Fin (curved (grid_point ex_grid [i 1%nat; i O]))).
Lemma curved_example : List.Forall grid_ok ex_grid /\ grid_data ex_grid curved_values (fun js => curved (grid_point ex_grid js)) /\
  test_points (length ex_grid) [4%nat] ex_coords (fun i => [INR (i O) / 2; 1]) /\ within ex_grid [INR 3 / 2; 1] /\
  Forall2 spaced [2; 2] ex_grid /\ steady_along ex_grid curved [6; 3] /\ smooth_along ex_grid curved [2; 0].
Proof.
  split; [exact ex_grid_ok|]. split; [|split; [exact ex_points|]].
  { split; [reflexivity|]. intros js H. inversion H as [|? j0 ? js0 H0 H1]; subst. inversion H1 as [|? j1 ? js1 H2 H3]; subst. inversion H3; subst. reflexivity. }
  split. { repeat (constructor; [cbn; lra|]). constructor. }
  split. { repeat (constructor; [intros i Hi; cbn in Hi; destruct i as [|[|i]]; cbn; try lra; lia|]). constructor. }
  split.
  - intros l1 l2 a b W W'. destruct l1 as [|x [|y l1]].
    + inversion W as [|? ? ? ? Wa _]; subst. inversion W' as [|? ? ? ? Wb _]; subst. cbn in Wa, Wb. cbn -[Rabs]. unfold curved. cbn [nth].
      replace (a * a + 3 * nth 0 l2 0 - (b * b + 3 * nth 0 l2 0)) with ((a + b) * (a - b)) by ring. rewrite Rabs_mult. apply Rmult_le_compat_r; [apply Rabs_pos|]. rewrite Rabs_right by lra. lra.
    + unfold curved. cbn [app nth length]. replace (x * x + 3 * a - (x * x + 3 * b)) with (3 * (a - b)) by ring. rewrite Rabs_mult, (Rabs_right 3) by lra. lra.
    + exfalso. inversion W as [|? ? ? ? _ W2]; subst. inversion W2 as [|? ? ? ? _ W3]; subst. inversion W3 as [E|]. destruct l1; discriminate.
  - intros l1 l2. destruct l1 as [|x [|y l1]].
    + exists (fun s => 2 * s), (fun _ => 2). intros s _. split; [|split].
      * unfold curved. cbn [app nth]. auto_derive; [exact I|ring].
      * auto_derive; [exact I|ring].
      * cbn -[Rabs]. rewrite Rabs_right; lra.
    + exists (fun s => 3), (fun _ => 0). intros s _. split; [|split].
      * unfold curved. cbn [app nth]. auto_derive; [exact I|ring].
      * auto_derive; [exact I|ring].
      * cbn -[Rabs]. rewrite Rabs_R0. lra.
    + exists (fun _ => 0), (fun _ => 0). intros s W. exfalso. inversion W as [|? ? ? ? _ W2]; subst. inversion W2 as [|? ? ? ? _ W3]; subst. inversion W3 as [E|]. destruct l1; discriminate.
Qed.
(** beyond the grid a greater value at one point may lower the result *)
Lemma beyond_refuted : exists gs values1 values2 V1 V2 coords xs Y1 Y2 v1 v2, List.Forall grid_ok gs /\ grid_data gs values1 V1 /\ grid_data gs values2 V2 /\ test_points (length gs) [1%nat] coords xs /\
  (forall js, on_grid gs js -> V1 js <= V2 js) /\ M_grid.regular_grid_interp (map (map Fin) gs) values1 coords None = Ok Y1 /\ M_grid.regular_grid_interp (map (map Fin) gs) values2 coords None = Ok Y2 /\
  aget Y1 (at_time 0) = Fin v1 /\ aget Y2 (at_time 0) = Fin v2 /\ v2 < v1.
Proof.
  set (gs := [[0; 1]]). set (F1 := fun l : list R => 0). set (F2 := fun l : list R => 1 - nth 0 l 0). set (co := mkA (Ok [1; 1]%nat) (fun _ => Fin 2)).
  assert (G : List.Forall grid_ok gs). { repeat constructor. intros a b H1 H2. cbn in H2. destruct b as [|[|b]]; destruct a as [|a]; try lia; cbn; lra. }
  assert (T : test_points (length gs) [1%nat] co (fun _ => [2])). { split; [reflexivity|]. intros i Hi. split; [reflexivity|]. intros n Hn. destruct n as [|n]; [reflexivity|cbn in Hn; lia]. }
  assert (D : forall F : list R -> R, grid_data gs (mkA (Ok [2%nat]) (fun i => Fin (F (grid_point gs [i O])))) (fun js => F (grid_point gs js))).
  { intro F. split; [reflexivity|]. intros js H. inversion H as [|? j0 ? js0 H0 H1]; subst. inversion H1; subst. reflexivity. }
  assert (I0 : inside [1%nat] (at_time 0)) by (intros k Hk; destruct k as [|k]; cbn in *; lia).
  assert (M1 : multilinear (length gs) F1) by (intros l1 l2 a b c _; unfold F1; ring).
  assert (M2 : multilinear (length gs) F2) by (intros l1 l2 a b c L; destruct l1 as [|x l1]; [|cbn in L; lia]; unfold F2; cbn; ring).
  destruct (grid_exact gs _ _ co [1%nat] (fun _ => [2]) F1 G (D F1) T M1 (fun js _ => eq_refl)) as (Y1 & E1 & _ & H1).
  destruct (grid_exact gs _ _ co [1%nat] (fun _ => [2]) F2 G (D F2) T M2 (fun js _ => eq_refl)) as (Y2 & E2 & _ & H2).
  eexists gs, _, _, _, _, co, (fun _ => [2]), Y1, Y2, _, _. split; [exact G|]. split; [exact (D F1)|]. split; [exact (D F2)|]. split; [exact T|].
  split. { intros js H. inversion H as [|? j0 ? js0 H0 H3]; subst. inversion H3; subst. unfold F1, F2. cbn. destruct j0 as [|[|j0]]; cbn in *; try lra; lia. }
  split; [exact E1|]. split; [exact E2|]. split; [apply H1, I0|]. split; [apply H2, I0|]. unfold F1, F2. cbn. lra.
Qed.
