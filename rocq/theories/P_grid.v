(** * C48-C51: interpolation on a regular grid *)
From Coq Require Import Reals List Bool Arith ZArith.
From Verif Require Import Num CoreOps Inst CoreFlux M_units M_kepler M_tensor M_limbdark M_interpolated M_grid Spec_array Spec_light Spec_grid L_grid4 L_grid5.
Import ListNotations.
Open Scope R_scope.

(** C48: in every cell the interpolant is the multilinear function through the
    values at the cell's corners; beyond the ends of the grid it is the
    continuation of the outermost cell. *)
Theorem C48_cell : forall gs values V coords s xs,
  List.Forall grid_ok gs -> grid_data gs values V -> test_points (length gs) s coords xs ->
  exists Y, regular_grid_interp (map (map Fin) gs) values coords None = Ok Y /\ ash Y = Ok s /\
    forall i is F, inside s i -> in_cell gs (xs i) is -> multilinear (length gs) F ->
      (forall js, corner is js -> V js = F (grid_point gs js)) -> aget Y i = Fin (F (xs i)).
Proof. exact grid_cell. Qed.
Print Assumptions C48_cell.

(** a multilinear function is recovered everywhere *)
Theorem C48_exact : forall gs values V coords s xs F,
  List.Forall grid_ok gs -> grid_data gs values V -> test_points (length gs) s coords xs ->
  multilinear (length gs) F -> (forall js, on_grid gs js -> V js = F (grid_point gs js)) ->
  exists Y, regular_grid_interp (map (map Fin) gs) values coords None = Ok Y /\ ash Y = Ok s /\
    forall i, inside s i -> aget Y i = Fin (F (xs i)).
Proof. exact grid_exact. Qed.
Print Assumptions C48_exact.

(** the data are reproduced at the grid points *)
Theorem C48_data : forall gs values V coords s xs,
  List.Forall grid_ok gs -> grid_data gs values V -> test_points (length gs) s coords xs ->
  exists Y, regular_grid_interp (map (map Fin) gs) values coords None = Ok Y /\ ash Y = Ok s /\
    forall i js, inside s i -> on_grid gs js -> xs i = grid_point gs js -> aget Y i = Fin (V js).
Proof. exact grid_reproduces. Qed.
Print Assumptions C48_data.

(** C49: inside the grid the result lies between the values at the corners *)
Theorem C49_convex : forall gs values V coords s xs,
  List.Forall grid_ok gs -> grid_data gs values V -> test_points (length gs) s coords xs ->
  exists Y, regular_grid_interp (map (map Fin) gs) values coords None = Ok Y /\ ash Y = Ok s /\
    forall i is lo hi, inside s i -> within gs (xs i) -> in_cell gs (xs i) is ->
      (forall js, corner is js -> lo <= V js <= hi) -> exists v, aget Y i = Fin v /\ lo <= v <= hi.
Proof. exact grid_convex. Qed.
Print Assumptions C49_convex.

(** the interpolant is one continuous function of the coordinates *)
Theorem C49_continuous : forall gs values V, List.Forall grid_ok gs -> grid_data gs values V ->
  exists G, (forall coords s xs, test_points (length gs) s coords xs ->
      exists Y, regular_grid_interp (map (map Fin) gs) values coords None = Ok Y /\ ash Y = Ok s /\
        forall i, inside s i -> aget Y i = Fin (G (xs i))) /\
    forall xs eps, length xs = length gs -> 0 < eps ->
      exists del, 0 < del /\ forall ys, closer del xs ys -> Rabs (G xs - G ys) < eps.
Proof. exact grid_continuous. Qed.
Print Assumptions C49_continuous.

(** C50: fill_value is used exactly where a coordinate is above the last grid
    point, or not above the first; everywhere else it has no effect *)
Theorem C50_fill : forall gs values V coords s xs f,
  List.Forall grid_ok gs -> grid_data gs values V -> test_points (length gs) s coords xs ->
  exists Y Z, regular_grid_interp (map (map Fin) gs) values coords (Some f) = Ok Y /\ ash Y = Ok s /\
    regular_grid_interp (map (map Fin) gs) values coords None = Ok Z /\ ash Z = Ok s /\
    forall i, inside s i -> (filled gs (xs i) -> aget Y i = f) /\ (~ filled gs (xs i) -> aget Y i = aget Z i).
Proof. exact grid_fill. Qed.
Print Assumptions C50_fill.

(** the lower face belongs to the grid, yet is filled *)
Theorem C50_edge : forall gs values V coords s xs f i n,
  List.Forall grid_ok gs -> grid_data gs values V -> test_points (length gs) s coords xs ->
  inside s i -> within gs (xs i) -> (n < length gs)%nat -> nth n (xs i) 0 = nth 0 (nth n gs []) 0 ->
  exists Y, regular_grid_interp (map (map Fin) gs) values coords (Some f) = Ok Y /\ aget Y i = f.
Proof. exact grid_edge. Qed.
Print Assumptions C50_edge.

(** an axis without two points is an error as soon as one coordinate is not
    above its only point *)
Theorem C50_short : forall gs values coords s xs fill n i, test_points (length gs) s coords xs -> twf coords ->
  (n < length gs)%nat -> inside s i -> (length (nth n gs []) = 0%nat \/ length (nth n gs []) = 1%nat /\ nth n (xs i) 0 <= nth 0 (nth n gs []) 0) ->
  regular_grid_interp (map (map Fin) gs) values coords fill = Err IndexErr.
Proof. exact grid_short. Qed.
Print Assumptions C50_short.

(** above the only point nothing is known *)
Theorem C50_one_point : forall g values V coords s xs, grid_data [[g]] values V -> test_points 1 s coords xs -> (forall i, inside s i -> g < nth 0 (xs i) 0) ->
  exists Y, regular_grid_interp [[Fin g]] values coords None = Ok Y /\ ash Y = Ok s /\ forall i, inside s i -> aget Y i = NaN.
Proof. exact grid_one. Qed.
Print Assumptions C50_one_point.

(** C51: values with an additional axis.  Unless sizes coincide there is an error *)
Theorem C51_error : forall gs q N values V coords xs,
  List.Forall grid_ok gs -> grid_vectors gs q values V -> test_points (length gs) [N] coords xs ->
  q <> N -> q <> 1%nat -> N <> 1%nat -> regular_grid_interp (map (map Fin) gs) values coords None = Err ShapeErr.
Proof. exact grid_vector_error. Qed.
Print Assumptions C51_error.

(** otherwise output c of test point m is weighted with the position of test point c *)
Theorem C51_mixed : forall gs q N values V coords xs,
  List.Forall grid_ok gs -> grid_vectors gs q values V -> test_points (length gs) [N] coords xs -> twf coords ->
  q = N \/ q = 1%nat \/ N = 1%nat -> (0 < q)%nat -> (0 < N)%nat ->
  exists Y, regular_grid_interp (map (map Fin) gs) values coords None = Ok Y /\ ash Y = Ok [Nat.max q N; N] /\
    forall m c, (m < N)%nat -> (c < Nat.max q N)%nat ->
    exists is is', in_cell gs (xs (at_time m)) is /\ in_cell gs (xs (at_time (coord N c))) is' /\
      aget Y (at_tp m c) = Fin (blend is (fractions gs (xs (at_time (coord N c))) is') (fun js => V js (coord q c))).
Proof. exact grid_vector_value. Qed.
Print Assumptions C51_mixed.

(** for one test point every output is interpolated correctly *)
Theorem C51_single : forall gs q values V coords xs,
  List.Forall grid_ok gs -> grid_vectors gs q values V -> test_points (length gs) [1%nat] coords xs -> twf coords -> (0 < q)%nat ->
  exists Y, regular_grid_interp (map (map Fin) gs) values coords None = Ok Y /\ ash Y = Ok [q; 1%nat] /\
    forall c is F, (c < q)%nat -> in_cell gs (xs (at_time 0)) is -> multilinear (length gs) F ->
      (forall js, corner is js -> V js c = F (grid_point gs js)) -> aget Y (at_tp 0 c) = Fin (F (xs (at_time 0))).
Proof. exact grid_vector_single. Qed.
Print Assumptions C51_single.

(** but not for as many test points as outputs *)
Theorem C51_vectors_refuted : ~ (forall gs q N values V coords xs F Y,
  List.Forall grid_ok gs -> grid_vectors gs q values V -> test_points (length gs) [N] coords xs -> twf coords ->
  multilinear (length gs) F -> (forall js c, on_grid gs js -> V js c = F (grid_point gs js)) ->
  regular_grid_interp (map (map Fin) gs) values coords None = Ok Y ->
  forall m c, (m < N)%nat -> (c < q)%nat -> aget Y (at_tp m c) = Fin (F (xs (at_time m)))).
Proof. exact vectors_refuted. Qed.
Print Assumptions C51_vectors_refuted.

(** a two-dimensional grid, four test points on a line: one of them on the
    lower face, the others inside *)
Example C48_example : List.Forall grid_ok ex_grid /\ grid_data ex_grid ex_values (fun js => INR (nth 0 js O) * 10 + INR (nth 1 js O)) /\
  test_points (length ex_grid) [4%nat] ex_coords (fun i => [INR (i O) / 2; 1]) /\
  in_cell ex_grid [INR 3 / 2; 1] [1; 0]%nat /\ within ex_grid [INR 3 / 2; 1] /\ filled ex_grid [0; 1] /\ ~ filled ex_grid [1; 1] /\
  multilinear 2 (fun l => nth 0 l 0 * nth 1 l 0 + 2).
Proof. exact grid_example. Qed.

Example C50_example : test_points (length [[0; 1]; [2]]) [3%nat] (mkA (Ok [2; 3]%nat) (fun i => Fin (match i O with O => INR (i 1%nat) | _ => 1 + INR (i 1%nat) end))) (fun i => [INR (i O); 1 + INR (i O)]) /\
  twf (mkA (Ok [2; 3]%nat) (fun i => Fin (match i O with O => INR (i 1%nat) | _ => 1 + INR (i 1%nat) end))) /\ inside [3%nat] (at_time 1) /\ 1 + INR 1 <= 2 /\
  grid_data [[2]] (mkA (Ok [1%nat]) (fun _ => Fin 5)) (fun _ => 5) /\ test_points 1 [3%nat] (mkA (Ok [1; 3]%nat) (fun i => Fin (3 + INR (i 1%nat)))) (fun i => [3 + INR (i O)]) /\
  forall i, inside [3%nat] i -> 2 < nth 0 [3 + INR (i O)] 0.
Proof. exact short_example. Qed.

Example C51_example :
  grid_vectors [[0; 1]] 3 (mkA (Ok [3; 2]%nat) (fun i => Fin (INR (i 1%nat) + INR (i O)))) (fun js c => INR (nth 0 js O) + INR c) /\
  test_points 1 [3%nat] (mkA (Ok [1; 3]%nat) (fun i => Fin (INR (i 1%nat) / 2))) (fun i => [INR (i O) / 2]) /\
  twf (mkA (Ok [1; 3]%nat) (fun i => Fin (INR (i 1%nat) / 2))).
Proof. exact vectors_example. Qed.
