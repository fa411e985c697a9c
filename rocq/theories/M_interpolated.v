(** * Model of src/exoplanet/light_curves/interpolated.py *)
From Coq Require Import Reals List Bool Arith ZArith.
From Verif Require Import Num CoreOps Inst CoreFlux M_units M_kepler M_tensor M_simple M_ttv M_limbdark.
Import ListNotations.
Open Scope R_scope.

(** [arange(start, stop, step)] of PyTensor for floats: ceil((stop - start) / step)
    numbers.  Simplified: all failures (zero step, NaN, infinity) are ValueError. *)
Definition arange (a b d : fl) : res (list R) :=
  match a, b, d with
  | Fin a, Fin b, Fin d =>
      if Reqb d 0 then Err ValueError
      else Ok (map (fun i => a + INR i * d) (seq 0 (Z.to_nat (Zceil ((b - a) / d)))))
  | _, _, _ => Err ValueError
  end.
(** [y[:, n]] of an array with two axes *)
Definition column (n : nat) (y : tens) : res (list fl) :=
  match ash y with
  | Ok [p; L] => if Nat.ltb n p then Ok (map (fun m => aget y (cons_ix n (cons_ix m ix0))) (seq 0 L)) else Err IndexErr
  | Ok _ => Err IndexErr
  | Err e => Err e
  end.
(** [l[z]]: negative positions count from the end *)
Definition take {A} (l : list A) (z : Z) : res A :=
  let L := Z.of_nat (length l) in
  let z := if (z <? 0)%Z then (z + L)%Z else z in
  if (z <? 0)%Z then Err IndexErr
  else match nth_error l (Z.to_nat z) with Some v => Ok v | None => Err IndexErr end.
(** [cast(floor(x), "int64")].  Simplified: not a number, an infinity: the cast
    gives a number that is no valid position. *)
Definition position_of (x : fl) : res Z := match x with Fin x => Ok (Zfloor x) | _ => Err IndexErr end.
Fixpoint map_res {A C} (f : A -> res C) (l : list A) : res (list C) :=
  match l with
  | [] => Ok []
  | a :: l => c <- f a ;; cs <- map_res f l ;; Ok (c :: cs)
  end.
Definition map4 {A C} (f : A -> A -> A -> A -> C) (l0 l1 l2 l3 : list A) : list C :=
  map (fun q => f (fst (fst (fst q))) (snd (fst (fst q))) (snd (fst q)) (snd q)) (combine (combine (combine l0 l1) l2) l3).

(** interpolated.py:25-37, for one x.  y0 = yp[:-3], y1 = yp[1:-2], y2 = yp[2:-1], y3 = yp[3:] *)
Definition interp_at (xp : list R) (yp : list fl) (xmin dx x : fl) : res fl :=
  let L := (length yp - 3)%nat in
  let y0 := firstn L yp in                                         (* 25 *)
  let y1 := firstn L (skipn 1 yp) in                               (* 26 *)
  let y2 := firstn L (skipn 2 yp) in                               (* 27 *)
  let y3 := skipn 3 yp in                                          (* 28 *)
  let a0 := y1 in                                                  (* 30 *)
  let a1 := map4 (fun y0 y1 y2 y3 => - y0 / nlit 3 - nlit 0.5 * y1 + y2 - y3 / nlit 6)%num y0 y1 y2 y3 in   (* 31 *)
  let a2 := map4 (fun y0 y1 y2 y3 => nlit 0.5 * (y0 + y2) - y1)%num y0 y1 y2 y3 in                         (* 32 *)
  let a3 := map4 (fun y0 y1 y2 y3 => nlit 0.5 * ((y1 - y2) + (y3 - y0) / nlit 3))%num y0 y1 y2 y3 in       (* 33 *)
  ind <- position_of ((x - xmin) / dx)%num ;;                      (* 35 *)
  p <- take xp (ind + 1) ;;
  let x0 := ((x - Fin p) / dx)%num in                              (* 36 *)
  c0 <- take a0 ind ;; c1 <- take a1 ind ;; c2 <- take a2 ind ;; c3 <- take a3 ind ;;
  Ok (c0 + c1 * x0 + c2 * x0 ^ 2 + c3 * x0 ^ 3)%num.               (* 37 *)
(** interpolated.py:8-37 *)
Definition interp (n : nat) (x : list fl) (xmin xmax dx : fl) (func : tens -> res tens) : res (list fl) :=
  xp <- arange (xmin - dx)%num (xmax + nlit 2.5 * dx)%num dx ;;    (* 22 *)
  yp <- func (avec xp) ;;                                          (* 23 *)
  yp <- column n yp ;;
  map_res (interp_at xp yp xmin dx) x.

(** interpolated.py:89-97 and 112-122: one planet.  The times are folded into
    one period. *)
Definition folded (n : nat) (num_phase : Z) (base : tens -> res tens) (t0 period : fl) (t : list fl) : res (list fl) :=
  let mn := t0 in
  let mx := (t0 + period)%num in
  interp n (map (fun t => nmod (t - t0) period + t0)%num t) mn mx ((mx - mn) / nlit (IZR (num_phase + 1)))%num base.
(** the elements of the array of times, in row-major order: lines 35-37 act
    element by element, whatever its shape *)
Definition entries (t : tens) : res (list fl) :=
  rmap (fun s => map (fun m => aget t (unlin s m)) (seq 0 (prod s))) (ash t).
(** [arange] and the slices accept only scalar t0 and period in the first case *)
Definition scalar_of (a : tens) : res fl :=
  match ash a with Ok [] => Ok (aget a ix0) | Ok _ => Err AssertErr | Err e => Err e end.
(** interpolated.py:67-76: [test_value] is the length of the test value attached
    to orbit.period, if there is one *)
Definition planet_count (num_planets : option Z) (test_value : option nat) : res Z :=
  match num_planets, test_value with
  | Some z, _ => Ok z
  | None, Some q => Ok (Z.of_nat q)
  | None, None => Err ValueError
  end.
(** arrays of shape s, given by their elements, stacked along a new last axis:
    [stack(ys, axis=-1)] *)
Definition stacked (s : shape) (cols : list (list fl)) : tens :=
  mkA (Ok (length cols :: s)) (fun i => nth (lin s (fun d => i (S d))) (nth (coord (length cols) (i O)) cols []) NaN).
(** [y[:, None]] of an array of shape s: a new axis after the first one *)
Definition expanded (s : shape) (y : list fl) : res tens :=
  match s with
  | [] => Err IndexErr
  | _ => Ok (mkA (Ok (removelast s ++ [1%nat; last s O]))
                 (fun i => nth (lin s (fun d => if Nat.ltb d (length s - 1) then i d else i (S d))) y NaN))
  end.
(** interpolated.py:56-125.  [base] is base_light_curve.get_light_curve as a
    function of the times (class _wrapper, 128-136); t0 and period are the
    attributes of the orbit. *)
Definition interpolated_light_curve (base : tens -> res tens) (num_phase : Z) (num_planets : option Z) (test_value : option nat)
    (t0 period t : tens) : res tens :=
  np <- planet_count num_planets test_value ;;
  s <- ash t ;;
  ts <- entries t ;;
  if (np <=? 1)%Z then
    t0 <- scalar_of t0 ;;
    period <- scalar_of period ;;
    y <- folded 0 num_phase base t0 period ts ;;
    expanded s y                                                   (* 98: [:, None] *)
  else
    ys <- map_res (fun n =>
            t0 <- tix t0 n ;;
            period <- tix period n ;;
            folded n num_phase base t0 period ts) (seq 0 (Z.to_nat np)) ;;
    Ok (stacked s ys).                                             (* 125 *)
