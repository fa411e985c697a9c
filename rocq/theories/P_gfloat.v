(** * Rounding errors in regular_grid_interp: property C116 *)
From Coq Require Import Reals List Arith ZArith.
From Verif Require Import Num CoreOps Inst CoreFlux M_units M_kepler M_tensor M_grid Spec_array Spec_light Spec_grid Spec_float Spec_float2 Spec_float3
  L_grid4 L_float12 Ex_float Ex_float3.
Import ListNotations.
Open Scope R_scope.

(** inside the grid: off by a few rounding errors of the largest value at the corners *)
Theorem C116_within : forall u rd, accurate u rd -> forall gs values V coords s xs,
  List.Forall grid_ok gs -> grid_data gs values V -> test_points (length gs) s coords xs ->
  exists Y Y', regular_grid_interp (map (map Fin) gs) values coords None = Ok Y /\ ash Y = Ok s /\
    computed_interp rd (map (map Fin) gs) values coords None = Ok Y' /\ ash Y' = Ok s /\
    forall i M, inside s i -> within gs (xs i) -> (forall is js, in_cell gs (xs i) is -> corner is js -> Rabs (V js) <= M) ->
      exists v v', aget Y i = Fin v /\ aget Y' i = Fin v' /\ Rabs (v' - v) <= grid_error u (length gs) * M.
Proof. exact grid_float_within. Qed.
Print Assumptions C116_within.

(** everywhere: beyond the ends more so, in proportion to the distance *)
Theorem C116_error : forall u rd, accurate u rd -> forall gs values V coords s xs,
  List.Forall grid_ok gs -> grid_data gs values V -> test_points (length gs) s coords xs ->
  exists Y Y', regular_grid_interp (map (map Fin) gs) values coords None = Ok Y /\ ash Y = Ok s /\
    computed_interp rd (map (map Fin) gs) values coords None = Ok Y' /\ ash Y' = Ok s /\
    forall i M H, inside s i -> (forall is js, in_cell gs (xs i) is -> corner is js -> Rabs (V js) <= M) ->
      (forall is, in_cell gs (xs i) is -> stretch (fractions gs (xs i) is) <= H) ->
      exists v v', aget Y i = Fin v /\ aget Y' i = Fin v' /\ Rabs (v' - v) <= grid_error u (length gs) * M * H.
Proof. exact grid_float_error. Qed.
Print Assumptions C116_error.

(** fill_value is used at exactly the same points as without rounding errors (C50) *)
Theorem C116_fill : forall u rd, accurate u rd -> forall gs values V coords s xs f,
  List.Forall grid_ok gs -> grid_data gs values V -> test_points (length gs) s coords xs ->
  exists Y Z, computed_interp rd (map (map Fin) gs) values coords (Some f) = Ok Y /\ ash Y = Ok s /\
    computed_interp rd (map (map Fin) gs) values coords None = Ok Z /\ ash Z = Ok s /\
    forall i, inside s i -> (filled gs (xs i) -> aget Y i = f) /\ (~ filled gs (xs i) -> aget Y i = aget Z i).
Proof. exact grid_float_fill. Qed.
Print Assumptions C116_fill.

(** the data are reproduced exactly at the grid points if results that are machine numbers are returned as they are ... *)
Theorem C116_data : forall u rd, accurate u rd -> forall gs values V coords s xs,
  List.Forall grid_ok gs -> grid_data gs values V -> test_points (length gs) s coords xs ->
  exact_on rd (fun r => r = 0 \/ r = 1 \/ exists js, on_grid gs js /\ r = V js) ->
  exists Y, computed_interp rd (map (map Fin) gs) values coords None = Ok Y /\ ash Y = Ok s /\
    forall i js, inside s i -> on_grid gs js -> xs i = grid_point gs js -> aget Y i = Fin (V js).
Proof. exact grid_float_data. Qed.
Print Assumptions C116_data.

(** ... as they are in double precision *)
Theorem C116_double : forall gs values V coords s xs,
  List.Forall grid_ok gs -> grid_data gs values V -> test_points (length gs) s coords xs -> (forall js, on_grid gs js -> nearest (V js) = V js) ->
  exists Y, computed_interp double (map (map Fin) gs) values coords None = Ok Y /\ ash Y = Ok s /\
    forall i js, inside s i -> on_grid gs js -> xs i = grid_point gs js -> aget Y i = Fin (V js).
Proof. exact grid_double. Qed.
Print Assumptions C116_double.

(** in general the results are not between the values at the corners, unlike without rounding errors (C49) *)
Theorem C116_between_refuted : ~ (forall u rd gs values V coords s xs, accurate u rd -> List.Forall grid_ok gs -> grid_data gs values V -> test_points (length gs) s coords xs ->
  exists Y, computed_interp rd (map (map Fin) gs) values coords None = Ok Y /\
    forall i is lo hi, inside s i -> within gs (xs i) -> in_cell gs (xs i) is -> (forall js, corner is js -> lo <= V js <= hi) -> exists v, aget Y i = Fin v /\ lo <= v <= hi).
Proof. exact between_fails. Qed.
Print Assumptions C116_between_refuted.

(** two axes in double precision: a relative error of less than 1e-14 *)
Example C116_example : accurate half_ulp double /\ List.Forall grid_ok ex_grid /\ grid_data ex_grid ex_values (fun js => INR (nth 0 js O) * 10 + INR (nth 1 js O)) /\
  test_points (length ex_grid) [4%nat] ex_coords (fun i => [INR (i O) / 2; 1]) /\ within ex_grid [INR 3 / 2; 1] /\ grid_error half_ulp (length ex_grid) <= / 10 ^ 14 /\
  (forall js, on_grid ex_grid js -> Rabs (INR (nth 0 js O) * 10 + INR (nth 1 js O)) <= 21 /\ nearest (INR (nth 0 js O) * 10 + INR (nth 1 js O)) = INR (nth 0 js O) * 10 + INR (nth 1 js O)) /\
  (* beyond the end of the first axis *)
  in_cell ex_grid [5; 1] [1; 0]%nat /\ stretch (fractions ex_grid [5; 1] [1; 0]%nat) = 3.
Proof. exact grid_float_example. Qed.
