(** * The same data on another grid: property C110 *)
From Coq Require Import Reals List Bool Arith ZArith Permutation.
From Verif Require Import Num CoreOps Inst M_tensor M_grid Spec_array Spec_light Spec_grid Spec_regrid
  L_grid4 L_regrid2 Ex_regrid.
Import ListNotations.
Open Scope R_scope.
Local Notation length := List.length.

(** the axes may be put in any order *)
Theorem C110_axes : forall gs p values V values' V' coords coords' s xs fill, List.Forall grid_ok gs -> Permutation p (seq 0 (length gs)) ->
  grid_data gs values V -> grid_data (reordered [] p gs) values' V' -> (forall js, on_grid gs js -> V js = V' (reordered O p js)) ->
  test_points (length gs) s coords xs -> test_points (length gs) s coords' (fun i => reordered 0 p (xs i)) ->
  same_interpolation gs values coords (reordered [] p gs) values' coords' fill s (fun _ => True).
Proof. exact axes_order. Qed.
Print Assumptions C110_axes.

Example C110_example_axes : List.Forall grid_ok ex_grid /\ Permutation [1; 0]%nat (seq 0 (length ex_grid)) /\ reordered [] [1; 0]%nat ex_grid = [[0; 2]; [0; 1; 3]] /\
  grid_data ex_grid (table2 3 2 (fun a b => INR a * 10 + INR b)) ex_V /\ grid_data (reordered [] [1; 0]%nat ex_grid) (table2 2 3 (fun b a => INR a * 10 + INR b)) (fun js => ex_V (rev js)) /\
  (forall js, on_grid ex_grid js -> ex_V js = ex_V (rev (reordered O [1; 0]%nat js))) /\
  test_points (length ex_grid) [4%nat] (points4 (fun m n => match n with O => INR m / 2 | _ => 1 end)) (fun i => [INR (i O) / 2; 1]) /\
  test_points (length ex_grid) [4%nat] (points4 (fun m n => match n with O => 1 | _ => INR m / 2 end)) (fun i => reordered 0 [1; 0]%nat [INR (i O) / 2; 1]).
Proof. exact order_example. Qed.

(** interpolating first onto a grid with more points, inside or outside of the old one, and then from there changes nothing *)
Theorem C110_refined : forall gs gs' values V mesh values' coords s xs fill, List.Forall grid_ok gs -> List.Forall grid_ok gs' -> Forall2 finer gs gs' ->
  grid_data gs values V -> all_points gs' mesh -> twf mesh -> regular_grid_interp (map (map Fin) gs) values mesh None = Ok values' ->
  test_points (length gs) s coords xs -> (fill <> None -> Forall2 same_ends gs gs') ->
  same_interpolation gs values coords gs' values' coords fill s (fun _ => True).
Proof. exact refined. Qed.
Print Assumptions C110_refined.

Example C110_example_refined : List.Forall grid_ok ex_grid /\ List.Forall grid_ok ex_fine /\ Forall2 finer ex_grid ex_fine /\ Forall2 same_ends ex_grid [[0; 1 / 2; 1; 3]; [0; 2]] /\
  grid_data ex_grid (table2 3 2 (fun a b => INR a * 10 + INR b)) ex_V /\ all_points ex_fine ex_mesh /\ twf ex_mesh /\
  exists values', regular_grid_interp (map (map Fin) ex_grid) (table2 3 2 (fun a b => INR a * 10 + INR b)) ex_mesh None = Ok values'.
Proof. exact refine_example. Qed.

(** part of the grid will do for points inside that part *)
Theorem C110_cut : forall ks gs gs' values V values' V' coords s xs fill, List.Forall grid_ok gs -> List.Forall grid_ok gs' -> runs ks gs gs' ->
  grid_data gs values V -> grid_data gs' values' V' -> (forall js, on_grid gs' js -> V' js = V (plus_each ks js)) -> test_points (length gs) s coords xs ->
  same_interpolation gs values coords gs' values' coords fill s (fun i => within gs' (xs i) /\ (fill <> None -> ~ filled gs' (xs i))).
Proof. exact cut. Qed.
Print Assumptions C110_cut.

Example C110_example_cut : List.Forall grid_ok ex_grid /\ List.Forall grid_ok [[1; 3]; [0; 2]] /\ runs [1; 0]%nat ex_grid [[1; 3]; [0; 2]] /\
  grid_data ex_grid (table2 3 2 (fun a b => INR a * 10 + INR b)) ex_V /\ grid_data [[1; 3]; [0; 2]] (table2 2 2 (fun a b => INR (S a) * 10 + INR b)) (fun js => ex_V (plus_each [1; 0]%nat js)) /\
  within [[1; 3]; [0; 2]] [3 / 2; 1] /\ ~ filled [[1; 3]; [0; 2]] [3 / 2; 1].
Proof. exact cut_grid_example. Qed.

(** the units and the zero point of the coordinates do not matter *)
Theorem C110_units : forall abs gs values V values' V' coords coords' s xs fill, List.Forall grid_ok gs -> length abs = length gs -> List.Forall (fun p => 0 < fst p) abs ->
  grid_data gs values V -> grid_data (rescaled_grid abs gs) values' V' -> (forall js, on_grid gs js -> V' js = V js) ->
  test_points (length gs) s coords xs -> test_points (length gs) s coords' (fun i => rescaled abs (xs i)) ->
  same_interpolation gs values coords (rescaled_grid abs gs) values' coords' fill s (fun _ => True).
Proof. exact other_units. Qed.
Print Assumptions C110_units.

Example C110_example_units : List.Forall grid_ok ex_grid /\ length [(24, 0); (1, 5)] = length ex_grid /\ List.Forall (fun p => 0 < fst p) [(24, 0); (1, 5)] /\
  grid_data ex_grid (table2 3 2 (fun a b => INR a * 10 + INR b)) ex_V /\ grid_data (rescaled_grid [(24, 0); (1, 5)] ex_grid) (table2 3 2 (fun a b => INR a * 10 + INR b)) ex_V /\
  test_points (length ex_grid) [4%nat] (points4 (fun m n => match n with O => INR m / 2 | _ => 1 end)) (fun i => [INR (i O) / 2; 1]) /\
  test_points (length ex_grid) [4%nat] (points4 (fun m n => match n with O => 24 * (INR m / 2) + 0 | _ => 1 * 1 + 5 end)) (fun i => rescaled [(24, 0); (1, 5)] [INR (i O) / 2; 1]).
Proof. exact units_example. Qed.

(** nor do the signs of the coordinates ... *)
Theorem C110_mirrored : forall fs gs values V values' V' coords coords' s xs, List.Forall grid_ok gs -> length fs = length gs ->
  grid_data gs values V -> grid_data (mirrored_grid fs gs) values' V' -> (forall js, on_grid (mirrored_grid fs gs) js -> V' js = V (mirrored_number fs gs js)) ->
  test_points (length gs) s coords xs -> test_points (length gs) s coords' (fun i => mirrored fs (xs i)) ->
  same_interpolation gs values coords (mirrored_grid fs gs) values' coords' None s (fun _ => True).
Proof. exact mirror_image. Qed.
Print Assumptions C110_mirrored.

Example C110_example_mirrored : List.Forall grid_ok ex_grid /\ mirrored_grid [true; false] ex_grid = [[Ropp 3; Ropp 1; Ropp 0]; [0; 2]] /\
  grid_data ex_grid (table2 3 2 (fun a b => INR a * 10 + INR b)) ex_V /\
  grid_data (mirrored_grid [true; false] ex_grid) (table2 3 2 (fun a b => INR (2 - a) * 10 + INR b)) (fun js => ex_V (mirrored_number [true; false] ex_grid js)) /\
  test_points (length ex_grid) [4%nat] (points4 (fun m n => match n with O => INR m / 2 | _ => 1 end)) (fun i => [INR (i O) / 2; 1]) /\
  test_points (length ex_grid) [4%nat] (points4 (fun m n => match n with O => - (INR m / 2) | _ => 1 end)) (fun i => mirrored [true; false] [INR (i O) / 2; 1]).
Proof. exact mirror_example. Qed.

(** ... unless there is a fill_value *)
Theorem C110_mirrored_fill_refuted : ~ (forall fs gs values V values' V' coords coords' s xs fill, List.Forall grid_ok gs -> length fs = length gs ->
  grid_data gs values V -> grid_data (mirrored_grid fs gs) values' V' -> (forall js, on_grid (mirrored_grid fs gs) js -> V' js = V (mirrored_number fs gs js)) ->
  test_points (length gs) s coords xs -> test_points (length gs) s coords' (fun i => mirrored fs (xs i)) ->
  same_interpolation gs values coords (mirrored_grid fs gs) values' coords' fill s (fun _ => True)).
Proof. exact mirror_fill. Qed.
Print Assumptions C110_mirrored_fill_refuted.
