(** * Accuracy and stability of interpolation on a grid: property C94 *)
From Coq Require Import Reals List ZArith.
From Verif Require Import Num CoreOps Inst M_tensor M_grid Spec_array Spec_light Spec_grid Spec_gridacc L_grid4 L_gridacc Ex_gridacc.
Import ListNotations.
Open Scope R_scope.
Local Notation length := List.length.

(** inside the grid the interpolant of a function of bounded slope is within half a step of it, times the slope, summed over the axes *)
Theorem C94_lipschitz : forall gs values V coords s xs F hs Ls, List.Forall grid_ok gs -> grid_data gs values V -> test_points (length gs) s coords xs ->
  (forall js, on_grid gs js -> V js = F (grid_point gs js)) -> Forall2 spaced hs gs ->
  length Ls = length gs -> List.Forall (fun L => 0 <= L) Ls -> steady_along gs F Ls ->
  exists Y, regular_grid_interp (map (map Fin) gs) values coords None = Ok Y /\ ash Y = Ok s /\
    forall i, inside s i -> within gs (xs i) -> exists v, aget Y i = Fin v /\ Rabs (v - F (xs i)) <= sum_over (fun L h => L * h / 2) Ls hs.
Proof. exact grid_steady. Qed.
Print Assumptions C94_lipschitz.

(** for a function with bounded second derivatives the error is of second order in the steps *)
Theorem C94_smooth : forall gs values V coords s xs F hs Ms, List.Forall grid_ok gs -> grid_data gs values V -> test_points (length gs) s coords xs ->
  (forall js, on_grid gs js -> V js = F (grid_point gs js)) -> Forall2 spaced hs gs -> length Ms = length gs -> smooth_along gs F Ms ->
  exists Y, regular_grid_interp (map (map Fin) gs) values coords None = Ok Y /\ ash Y = Ok s /\
    forall i, inside s i -> within gs (xs i) -> exists v, aget Y i = Fin v /\ Rabs (v - F (xs i)) <= sum_over (fun M h => M * (h * h) / 8) Ms hs.
Proof. exact grid_smooth. Qed.
Print Assumptions C94_smooth.

(** the result is linear in the values, inside and outside of the grid *)
Theorem C94_linear : forall gs values1 values2 values3 V1 V2 V3 coords s xs a b, List.Forall grid_ok gs -> grid_data gs values1 V1 -> grid_data gs values2 V2 -> grid_data gs values3 V3 ->
  (forall js, on_grid gs js -> V3 js = a * V1 js + b * V2 js) -> test_points (length gs) s coords xs ->
  exists Y1 Y2 Y3, regular_grid_interp (map (map Fin) gs) values1 coords None = Ok Y1 /\ regular_grid_interp (map (map Fin) gs) values2 coords None = Ok Y2 /\
    regular_grid_interp (map (map Fin) gs) values3 coords None = Ok Y3 /\
    forall i, inside s i -> exists v1 v2, aget Y1 i = Fin v1 /\ aget Y2 i = Fin v2 /\ aget Y3 i = Fin (a * v1 + b * v2).
Proof. exact grid_linear. Qed.
Print Assumptions C94_linear.

(** inside the grid greater values give a greater result, and an error of the values is not amplified *)
Theorem C94_order : forall gs values1 values2 V1 V2 coords s xs e, List.Forall grid_ok gs -> grid_data gs values1 V1 -> grid_data gs values2 V2 -> test_points (length gs) s coords xs ->
  exists Y1 Y2, regular_grid_interp (map (map Fin) gs) values1 coords None = Ok Y1 /\ regular_grid_interp (map (map Fin) gs) values2 coords None = Ok Y2 /\
    forall i, inside s i -> within gs (xs i) -> exists v1 v2, aget Y1 i = Fin v1 /\ aget Y2 i = Fin v2 /\
      ((forall js, on_grid gs js -> V1 js <= V2 js) -> v1 <= v2) /\ ((forall js, on_grid gs js -> Rabs (V1 js - V2 js) <= e) -> Rabs (v1 - v2) <= e).
Proof. exact grid_order. Qed.
Print Assumptions C94_order.

(** not so beyond the grid *)
Theorem C94_beyond_refuted : exists gs values1 values2 V1 V2 coords xs Y1 Y2 v1 v2, List.Forall grid_ok gs /\ grid_data gs values1 V1 /\ grid_data gs values2 V2 /\ test_points (length gs) [1%nat] coords xs /\
  (forall js, on_grid gs js -> V1 js <= V2 js) /\ regular_grid_interp (map (map Fin) gs) values1 coords None = Ok Y1 /\ regular_grid_interp (map (map Fin) gs) values2 coords None = Ok Y2 /\
  aget Y1 (at_time 0) = Fin v1 /\ aget Y2 (at_time 0) = Fin v2 /\ v2 < v1.
Proof. exact beyond_refuted. Qed.
Print Assumptions C94_beyond_refuted.

Example C94_example : List.Forall grid_ok ex_grid /\ grid_data ex_grid curved_values (fun js => curved (grid_point ex_grid js)) /\
  test_points (length ex_grid) [4%nat] ex_coords (fun i => [INR (i O) / 2; 1]) /\ within ex_grid [INR 3 / 2; 1] /\
  Forall2 spaced [2; 2] ex_grid /\ steady_along ex_grid curved [6; 3] /\ smooth_along ex_grid curved [2; 0].
Proof. exact curved_example. Qed.
