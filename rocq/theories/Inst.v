(** * Instances of [Num]: exact reals, IEEE special values, arrays *)
From Coq Require Import Reals List Bool Arith Lia Lra ZArith.
From Verif Require Import Num CoreOps.
Import ListNotations.
Open Scope R_scope.

(** ** Exact reals *)
#[global] Instance NumR : Num R bool := {|
  nlit := fun r => r;
  nadd := Rplus; nsub := Rminus; nmul := Rmult; ndiv := Rdiv; nneg := Ropp;
  nsqrt := sqrt; nsin := sin; ncos := cos; nasin := asin; nacos := acos;
  natan2 := Ratan2; nexp := exp; nlog := ln; nabs := Rabs;
  nfloor := Rfloor; nmod := Rmodulo; npowr := Rpowr;
  nkepler_sin := kepler_sinf; nkepler_cos := kepler_cosf;
  nzl := fun _ => 0; npadr := fun x => x; nsqz := fun x => x;
  nlt := Rltb; nle := Rleb; nband := andb;
  nsw := fun c a b => if c then a else b
|}.

(** ** Reals with IEEE special values *)
Inductive fl : Type := Fin (r : R) | Inf (positive : bool) | NaN.

Definition fneg (a : fl) : fl :=
  match a with Fin x => Fin (- x) | Inf s => Inf (negb s) | NaN => NaN end.
Definition fadd (a b : fl) : fl :=
  match a, b with
  | Fin x, Fin y => Fin (x + y)
  | NaN, _ | _, NaN => NaN
  | Inf s, Inf s' => if Bool.eqb s s' then Inf s else NaN
  | Inf s, Fin _ | Fin _, Inf s => Inf s
  end.
Definition fsub a b := fadd a (fneg b).
(** sign of a non-zero real as the polarity of an infinity *)
Definition rpos (x : R) : bool := Rltb 0 x.
Definition fmul (a b : fl) : fl :=
  match a, b with
  | Fin x, Fin y => Fin (x * y)
  | NaN, _ | _, NaN => NaN
  | Inf s, Inf s' => Inf (Bool.eqb s s')
  | Inf s, Fin y | Fin y, Inf s => if Reqb y 0 then NaN else Inf (Bool.eqb s (rpos y))
  end.
(** zero is unsigned and counts as +0 in a denominator *)
Definition fdiv (a b : fl) : fl :=
  match a, b with
  | NaN, _ | _, NaN => NaN
  | Fin x, Fin y =>
      if Reqb y 0 then (if Reqb x 0 then NaN else Inf (rpos x)) else Fin (x / y)
  | Fin _, Inf _ => Fin 0
  | Inf s, Fin y => if Rltb y 0 then Inf (negb s) else Inf s
  | Inf _, Inf _ => NaN
  end.
Definition fsqrt (a : fl) : fl :=
  match a with
  | Fin x => if Rltb x 0 then NaN else Fin (sqrt x)
  | Inf true => Inf true
  | _ => NaN
  end.
Definition ftrig (f : R -> R) (a : fl) : fl :=
  match a with Fin x => Fin (f x) | _ => NaN end.
(** asin / acos: NaN outside [-1, 1] *)
Definition farc (f : R -> R) (a : fl) : fl :=
  match a with
  | Fin x => if Rleb (-1) x && Rleb x 1 then Fin (f x) else NaN
  | _ => NaN
  end.
Definition fatan2 (y x : fl) : fl :=
  match y, x with
  | Fin y, Fin x => Fin (Ratan2 y x)
  | NaN, _ | _, NaN => NaN
  | Fin y, Inf true => Fin 0
  | Fin y, Inf false => Fin (if Rltb y 0 then - PI else PI)
  | Inf s, Fin _ => Fin (if s then PI / 2 else - (PI / 2))
  | Inf s, Inf s' =>
      Fin ((if s then 1 else -1) * (if s' then PI / 4 else 3 * (PI / 4)))
  end.
Definition fexp (a : fl) : fl :=
  match a with
  | Fin x => Fin (exp x) | Inf true => Inf true | Inf false => Fin 0 | NaN => NaN
  end.
Definition flog (a : fl) : fl :=
  match a with
  | Fin x => if Rltb 0 x then Fin (ln x) else if Reqb x 0 then Inf false else NaN
  | Inf true => Inf true
  | _ => NaN
  end.
Definition fabs (a : fl) : fl :=
  match a with Fin x => Fin (Rabs x) | Inf _ => Inf true | NaN => NaN end.
Definition ffloor (a : fl) : fl :=
  match a with Fin x => Fin (Rfloor x) | _ => a end.
(** mod by zero and mod of or by an infinity: NaN (numpy returns x for
    [mod x inf]; never reached by the modelled code) *)
Definition fmod (a b : fl) : fl :=
  match a, b with
  | Fin x, Fin y => if Reqb y 0 then NaN else Fin (Rmodulo x y)
  | _, _ => NaN
  end.
(** non-integer power; only exponents 1/3, 3/2, 2/3 occur *)
Definition fpowr (a b : fl) : fl :=
  match a, b with
  | Fin x, Fin y =>
      if Rltb x 0 then NaN
      else if Reqb x 0 && Rltb y 0 then Inf true
      else Fin (Rpowr x y)
  | Inf true, Fin y => if Rltb 0 y then Inf true else if Reqb y 0 then Fin 1 else Fin 0
  | _, _ => NaN
  end.
(** the solver is specified for 0 <= e < 1 only; NaN elsewhere *)
Definition fkep (f : R -> R -> R) (M e : fl) : fl :=
  match M, e with
  | Fin m, Fin x => if Rleb 0 x && Rltb x 1 then Fin (f m x) else NaN
  | _, _ => NaN
  end.
Definition flt (a b : fl) : bool :=
  match a, b with
  | Fin x, Fin y => Rltb x y
  | NaN, _ | _, NaN => false
  | Inf s, Fin _ => negb s
  | Fin _, Inf s => s
  | Inf s, Inf s' => negb s && s'
  end.
Definition fle (a b : fl) : bool :=
  match a, b with
  | Fin x, Fin y => Rleb x y
  | NaN, _ | _, NaN => false
  | Inf s, Fin _ => negb s
  | Fin _, Inf s => s
  | Inf s, Inf s' => negb s || s'
  end.

#[global] Instance NumF : Num fl bool | 5 := {|
  nlit := Fin;
  nadd := fadd; nsub := fsub; nmul := fmul; ndiv := fdiv; nneg := fneg;
  nsqrt := fsqrt; nsin := ftrig sin; ncos := ftrig cos;
  nasin := farc asin; nacos := farc acos;
  natan2 := fatan2; nexp := fexp; nlog := flog; nabs := fabs;
  nfloor := ffloor; nmod := fmod; npowr := fpowr;
  nkepler_sin := fkep kepler_sinf; nkepler_cos := fkep kepler_cosf;
  nzl := fun _ => Fin 0; npadr := fun x => x; nsqz := fun x => x;
  nlt := flt; nle := fle; nband := andb;
  nsw := fun c a b => if c then a else b
|}.

(** ** Arrays with broadcasting

    A shape is a list of axis lengths, LAST AXIS FIRST.  An index assigns a
    position to every axis, axis 0 being the last one.  [tget] ignores the
    axes the array does not have and those of length one, so that reading a
    broadcast operand needs no index arithmetic ([twf]). *)
Definition shape := list nat.
Definition idx := nat -> nat.

(** numpy broadcasting of two shapes; [None] is a shape error *)
Fixpoint bc (a b : shape) : option shape :=
  match a, b with
  | [], _ => Some b
  | _, [] => Some a
  | x :: a', y :: b' =>
      match bc a' b' with
      | None => None
      | Some c =>
          if Nat.eqb x y then Some (x :: c)
          else if Nat.eqb x 1 then Some (y :: c)
          else if Nat.eqb y 1 then Some (x :: c)
          else None
      end
  end.
Definition bcr (a b : res shape) : res shape :=
  match a, b with
  | Ok x, Ok y => match bc x y with Some c => Ok c | None => Err ShapeErr end
  | Err e, _ => Err e
  | _, Err e => Err e
  end.

Record arr (A : Type) := mkA { ash : res shape; aget : idx -> A }.
Arguments mkA {A} ash aget.
Arguments ash {A} a.
Arguments aget {A} a i.
Definition tens := arr fl.
Definition btens := arr bool.

Definition amap {A C} (f : A -> C) (a : arr A) : arr C :=
  mkA (ash a) (fun i => f (aget a i)).
Definition amap2 {A C D} (f : A -> C -> D) (a : arr A) (b : arr C) : arr D :=
  mkA (bcr (ash a) (ash b)) (fun i => f (aget a i) (aget b i)).
Definition amap3 {A C D G} (f : A -> C -> D -> G) (a : arr A) (b : arr C) (c : arr D)
  : arr G :=
  mkA (bcr (ash a) (bcr (ash b) (ash c))) (fun i => f (aget a i) (aget b i) (aget c i)).
Definition alit {A} (x : A) : arr A := mkA (Ok []) (fun _ => x).

(** [shape_padright]: a new last axis of length one *)
Definition apadr {A} (a : arr A) : arr A :=
  mkA (rmap (cons 1%nat) (ash a)) (fun i => aget a (fun k => i (S k))).

(** [squeeze]: drop all axes of length one *)
Fixpoint sqz_count (s : shape) (k : nat) : nat :=
  match s, k with
  | [], _ | _, O => O
  | d :: s', S k' => (if Nat.eqb d 1 then 0 else 1) + sqz_count s' k'
  end%nat.
Definition sqz_ix (s : shape) (i : idx) : idx :=
  fun k => match nth_error s k with
           | Some d => if Nat.eqb d 1 then O else i (sqz_count s k)
           | None => O
           end.
Definition asqz {A} (a : arr A) : arr A :=
  mkA (rmap (filter (fun d => negb (Nat.eqb d 1))) (ash a))
      (fun i => match ash a with
                | Ok s => aget a (sqz_ix s i)
                | Err _ => aget a i
                end).

#[global] Instance NumT : Num tens btens | 10 := {|
  nlit := fun r => alit (Fin r);
  nadd := amap2 fadd; nsub := amap2 fsub; nmul := amap2 fmul; ndiv := amap2 fdiv;
  nneg := amap fneg;
  nsqrt := amap fsqrt; nsin := amap (ftrig sin); ncos := amap (ftrig cos);
  nasin := amap (farc asin); nacos := amap (farc acos);
  natan2 := amap2 fatan2; nexp := amap fexp; nlog := amap flog; nabs := amap fabs;
  nfloor := amap ffloor; nmod := amap2 fmod; npowr := amap2 fpowr;
  nkepler_sin := amap2 (fkep kepler_sinf); nkepler_cos := amap2 (fkep kepler_cosf);
  nzl := amap (fun _ => Fin 0); npadr := apadr; nsqz := asqz;
  nlt := amap2 flt; nle := amap2 fle; nband := amap2 andb;
  nsw := amap3 (fun (c : bool) (a b : fl) => if c then a else b)
|}.

(** Well-formed array: reading ignores absent axes and axes of length one. *)
Definition twf {A} (a : arr A) : Prop :=
  forall s, ash a = Ok s ->
  forall i j, (forall k, nth k s 1%nat <> 1%nat -> i k = j k) -> aget a i = aget a j.
