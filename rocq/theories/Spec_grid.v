(** * Specification vocabulary for interpolation on a grid *)
From Coq Require Import Reals List Bool Arith ZArith.
From Verif Require Import Num CoreOps Inst CoreFlux M_units M_kepler M_tensor M_limbdark Spec_array Spec_light.
Import ListNotations.
Open Scope R_scope.

(** at least two grid points, in increasing order *)
Definition grid_ok (g : list R) : Prop :=
  (2 <= length g)%nat /\ forall a b, (a < b)%nat -> (b < length g)%nat -> nth a g 0 < nth b g 0.
(** js is the position of a grid point *)
Definition on_grid (gs : list (list R)) (js : list nat) : Prop := Forall2 (fun g j => (j < length g)%nat) gs js.
(** its coordinates *)
Fixpoint grid_point (gs : list (list R)) (js : list nat) : list R :=
  match gs, js with
  | g :: gs, j :: js => nth j g 0 :: grid_point gs js
  | _, _ => []
  end.
(** V js is the value at grid point number js *)
Definition grid_data (gs : list (list R)) (values : tens) (V : list nat -> R) : Prop :=
  ash values = Ok (rev (map (@length R) gs)) /\
  forall js, on_grid gs js -> aget values (fun ax => nth ax (rev js) O) = Fin (V js).
(** an array of points with D coordinates each *)
Definition test_points (D : nat) (s : shape) (coords : tens) (xs : idx -> list R) : Prop :=
  ash coords = Ok (D :: s) /\
  forall i, inside s i -> length (xs i) = D /\ forall n, (n < D)%nat -> aget coords (cons_ix n i) = Fin (nth n (xs i) 0).
(** the function is affine in each of its n arguments *)
Definition multilinear (n : nat) (F : list R -> R) : Prop :=
  forall l1 l2 a b c, (length l1 + S (length l2))%nat = n ->
    F (l1 ++ ((1 - c) * a + c * b) :: l2) = (1 - c) * F (l1 ++ a :: l2) + c * F (l1 ++ b :: l2).
(** the coordinate x belongs to the interval from grid point i to the next; the
    first interval extends to the left, the last to the right *)
Definition belongs (g : list R) (x : R) (i : nat) : Prop :=
  (S i < length g)%nat /\ (i = 0%nat \/ nth i g 0 <= x) /\ (S (S i) = length g \/ x <= nth (S i) g 0).
Inductive in_cell : list (list R) -> list R -> list nat -> Prop :=
| in_nil : in_cell [] [] []
| in_cons g gs x xs i is : belongs g x i -> in_cell gs xs is -> in_cell (g :: gs) (x :: xs) (i :: is).
(** js is one of the corners of the cell *)
Definition corner (is js : list nat) : Prop := Forall2 (fun i j => j = i \/ j = S i) is js.
(** all coordinates are within the grid, ends included *)
Definition within (gs : list (list R)) (xs : list R) : Prop := Forall2 (fun g x => nth 0 g 0 <= x <= last g 0) gs xs.
(** the condition under which fill_value is used *)
Definition filled (gs : list (list R)) (xs : list R) : Prop :=
  exists n, (n < length gs)%nat /\ (nth n xs 0 <= nth 0 (nth n gs []) 0 \/ last (nth n gs []) 0 < nth n xs 0).
(** distances from the lower corner of the cell in units of its size *)
Fixpoint fractions (gs : list (list R)) (xs : list R) (is : list nat) : list R :=
  match gs, xs, is with
  | g :: gs, x :: xs, i :: is => (x - nth i g 0) / (nth (S i) g 0 - nth i g 0) :: fractions gs xs is
  | _, _, _ => []
  end.
(** the values at the corners of a cell, weighted with fractions *)
Fixpoint blend (is : list nat) (ys : list R) (V : list nat -> R) : R :=
  match is, ys with
  | i :: is, y :: ys => (1 - y) * blend is ys (fun js => V (i :: js)) + y * blend is ys (fun js => V (S i :: js))
  | _, _ => V []
  end.
(** values with an additional last axis of length q *)
Definition grid_vectors (gs : list (list R)) (q : nat) (values : tens) (V : list nat -> nat -> R) : Prop :=
  ash values = Ok (q :: rev (map (@length R) gs)) /\ twf values /\
  forall js c, on_grid gs js -> (c < q)%nat -> aget values (cons_ix c (fun ax => nth ax (rev js) O)) = Fin (V js c).
(** two lists of coordinates closer than d *)
Definition closer (d : R) (xs ys : list R) : Prop := Forall2 (fun x y => Rabs (x - y) < d) xs ys.
