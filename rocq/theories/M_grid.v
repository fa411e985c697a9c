(** * Model of src/exoplanet/interp.py *)
From Coq Require Import Reals List Bool Arith ZArith.
From Verif Require Import Num CoreOps Inst CoreFlux M_units M_kepler M_tensor M_simple M_ttv M_limbdark M_interpolated.
Import ListNotations.
Open Scope R_scope.

(** ** array operations *)
(** [searchsorted(g, x)] for a sorted vector g: the number of entries smaller
    than x; not-a-number is sorted last *)
Definition searchsorted (g : list fl) (x : fl) : Z :=
  match x with
  | NaN => Z.of_nat (length g)
  | _ => Z.of_nat (length (filter (fun a => flt a x) g))
  end.
(** [clip(z, lo, hi)] *)
Definition zclip (lo hi z : Z) : Z := if (z <? lo)%Z then lo else if (hi <? z)%Z then hi else z.
(** an operation on every element; an error for any element is an error *)
Definition amap_res {A C} (f : A -> res C) (d : C) (a : arr A) : res (arr C) :=
  s <- ash a ;;
  if forallb (fun i => match f (aget a i) with Ok _ => true | Err _ => false end) (all_ix s)
  then Ok (mkA (Ok s) (fun i => match f (aget a i) with Ok c => c | Err _ => d end))
  else Err IndexErr.
(** [coords[..., n]] *)
Definition last_axis {A} (x : arr A) (n : nat) : res (arr A) :=
  match ash x with
  | Ok (d :: s) => if Nat.ltb n d then Ok (mkA (Ok s) (fun i => aget x (cons_ix n i))) else Err IndexErr
  | Ok [] => Err IndexErr
  | Err e => Err e
  end.
(** position z on an axis of length d; negative positions count from the end *)
Definition position (d : nat) (z : Z) : option nat :=
  let z := if (z <? 0)%Z then (z + Z.of_nat d)%Z else z in
  if (z <? 0)%Z then None else if (z <? Z.of_nat d)%Z then Some (Z.to_nat z) else None.
(** [values[edges]]: one array of positions for each of the first axes, all of
    shape s.  The remaining axes of values come last. *)
Definition gather (s : shape) (values : tens) (edges : list (arr Z)) : res tens :=
  sv <- ash values ;;
  let D := length edges in
  if Nat.ltb (length sv) D then Err IndexErr else
  let k := (length sv - D)%nat in
  let dims := rev (skipn k sv) in
  if forallb (fun i => forallb (fun p => match position (snd p) (aget (fst p) i) with Some _ => true | None => false end)
                               (combine edges dims)) (all_ix s)
  then Ok (mkA (Ok (firstn k sv ++ s))
             (fun i => let q := fun ax => i (ax + k)%nat in
                       let ps := map (fun p => match position (snd p) (aget (fst p) q) with Some n => n | None => O end) (combine edges dims) in
                       aget values (fun ax => if Nat.ltb ax k then i ax else nth (ax - k) (rev ps) O)))
  else Err IndexErr.
(** itertools.product *)
Fixpoint product {A} (l : list (list A)) : list (list A) :=
  match l with
  | [] => [[]]
  | a :: l => flat_map (fun x => map (cons x) (product l)) a
  end.
Fixpoint fold_res {A C} (f : C -> A -> res C) (l : list A) (c : C) : res C :=
  match l with
  | [] => Ok c
  | a :: l => c <- f c a ;; fold_res f l c
  end.

(** interp.py:40-45, one dimension: position of the cell, whether the coordinate
    is outside, and the distance from the lower end of the cell in units of its
    width.  Here and below the arithmetic of arrays is a parameter: [NumT], or one
    with rounding errors. *)
Definition grid_axis {NT : Num tens btens} (g : list fl) (x : tens) : res (arr Z * arr bool * tens) :=
  let m := Z.of_nat (length g) in
  let i := amap (fun x => searchsorted g x - 1)%Z x in             (* 41 *)
  let out := amap (fun i => (i <? 0) || (m - 1 <=? i))%Z i in      (* 42 *)
  let i := amap (zclip 0 (m - 2)) i in                             (* 43 *)
  g0 <- amap_res (take g) NaN i ;;
  g1 <- amap_res (take g) NaN (amap (Z.add 1) i) ;;
  Ok (i, out, ((x - g0) / (g1 - g0))%num).                         (* 45 *)
(** interp.py:39-45.  Simplified: every element of [points] is a vector. *)
Fixpoint grid_axes {NT : Num tens btens} (n : nat) (points : list (list fl)) (coords : tens) : res (list (arr Z * arr bool * tens)) :=
  match points with
  | [] => Ok []
  | g :: points =>
      x <- last_axis coords n ;;                                   (* 40 *)
      a <- grid_axis g x ;;
      l <- grid_axes (S n) points coords ;;
      Ok (a :: l)
  end.
(** interp.py:49-51 *)
Definition edge_weight {NT : Num tens btens} (s : shape) (edges : list (arr Z)) (axs : list (arr Z * arr bool * tens)) : tens :=
  fold_left (fun (w : tens) (p : arr Z * (arr Z * arr bool * tens)) =>
      let '(e, (i, _, y)) := p in
      w * nsw (amap2 Z.eqb e i) (nlit 1 - y) y)%num
    (combine edges axs) (mkA (Ok s) (fun _ => Fin 1)).
(** interp.py:30-57.  Simplified: fill_value is a number. *)
Definition regular_grid_interp {NT : Num tens btens} (points : list (list fl)) (values coords : tens) (fill_value : option fl) : res tens :=
  let ndim := length points in                                     (* 31 *)
  s <- rmap (@tl nat) (ash coords) ;;
  axs <- grid_axes 0 points coords ;;                              (* 39-45 *)
  let out := fold_left (fun o a => amap2 orb o (snd (fst a))) axs (mkA (Ok s) (fun _ => false)) in  (* 38, 42 *)
  sv <- ash values ;;
  let zeros := mkA (Ok (firstn (length sv - ndim) sv ++ s)) (fun _ => Fin 0) in                     (* 47 *)
  result <- fold_res (fun (r : tens) edges =>
              v <- gather s values edges ;;
              Ok (r + v * edge_weight s edges axs)%num)            (* 49-52 *)
            (product (map (fun a => [fst (fst a); amap (Z.add 1) (fst (fst a))]) axs)) zeros ;;     (* 48 *)
  let result := match fill_value with
                | None => result
                | Some f => nsw out (alit f) result                (* 54-55 *)
                end in
  rmap (fun _ => result) (ash result).
(** class RegularGridInterpolator, interp.py:74-90: evaluate *)
Definition RegularGridInterpolator_evaluate {NT : Num tens btens} (points : list (list fl)) (values : tens) (fill_value : option fl) (t : tens) : res tens :=
  regular_grid_interp points values t fill_value.
