(** * Specification vocabulary: the same data on another grid *)
From Coq Require Import Reals List Arith Permutation.
From Verif Require Import Num Inst M_tensor Spec_array Spec_light Spec_grid M_grid.
Import ListNotations.
Open Scope R_scope.
Local Notation length := List.length.

(** regular_grid_interp gives the same numbers for two grids and two arrays of coordinates *)
Definition same_interpolation (gs : list (list R)) (values coords : tens) (gs' : list (list R)) (values' coords' : tens) (fill : option fl) (s : shape) (where_ : idx -> Prop) : Prop :=
  exists Y Y', regular_grid_interp (map (map Fin) gs) values coords fill = Ok Y /\ regular_grid_interp (map (map Fin) gs') values' coords' fill = Ok Y' /\
    ash Y = Ok s /\ ash Y' = Ok s /\ forall i, inside s i -> where_ i -> aget Y i = aget Y' i.
(** the elements of l in the order p *)
Definition reordered {A} (d : A) (p : list nat) (l : list A) : list A := map (fun q => nth q l d) p.
(** an array with the coordinates of all grid points: its element number js is grid point number js *)
Definition all_points (gs : list (list R)) (mesh : tens) : Prop :=
  ash mesh = Ok (length gs :: rev (map (@length R) gs)) /\
  forall js n, on_grid gs js -> (n < length gs)%nat -> aget mesh (cons_ix n (fun ax => nth ax (rev js) O)) = Fin (nth n (grid_point gs js) 0).
(** g' has all the points of g, and perhaps more *)
Definition finer (g g' : list R) : Prop := forall v, In v g -> In v g'.
Definition same_ends (g g' : list R) : Prop := nth 0 g 0 = nth 0 g' 0 /\ last g 0 = last g' 0.
(** g' is a run of consecutive points of g, starting at number k *)
Definition run_of (k : nat) (g g' : list R) : Prop := (k + length g' <= length g)%nat /\ forall j, (j < length g')%nat -> nth j g' 0 = nth (k + j) g 0.
Inductive runs : list nat -> list (list R) -> list (list R) -> Prop :=
| runs_nil : runs [] [] []
| runs_cons k ks g gs g' gs' : run_of k g g' -> runs ks gs gs' -> runs (k :: ks) (g :: gs) (g' :: gs').
Fixpoint plus_each (ks js : list nat) : list nat := match ks, js with k :: ks, j :: js => (k + j)%nat :: plus_each ks js | _, _ => [] end.
(** coordinates in other units: v becomes a v + b, with its own a and b for each axis *)
Fixpoint rescaled (abs : list (R * R)) (xs : list R) : list R := match abs, xs with (a, b) :: abs, x :: xs => (a * x + b) :: rescaled abs xs | _, _ => [] end.
Fixpoint rescaled_grid (abs : list (R * R)) (gs : list (list R)) : list (list R) := match abs, gs with (a, b) :: abs, g :: gs => map (fun v => a * v + b) g :: rescaled_grid abs gs | _, _ => [] end.
(** axes with their sign changed and their points in reverse order *)
Fixpoint mirrored (fs : list bool) (xs : list R) : list R := match fs, xs with f :: fs, x :: xs => (if f then - x else x) :: mirrored fs xs | _, _ => [] end.
Fixpoint mirrored_grid (fs : list bool) (gs : list (list R)) : list (list R) := match fs, gs with f :: fs, g :: gs => (if f then rev (map Ropp g) else g) :: mirrored_grid fs gs | _, _ => [] end.
Fixpoint mirrored_number (fs : list bool) (gs : list (list R)) (js : list nat) : list nat :=
  match fs, gs, js with f :: fs, g :: gs, j :: js => (if f then (length g - 1 - j)%nat else j) :: mirrored_number fs gs js | _, _, _ => [] end.
