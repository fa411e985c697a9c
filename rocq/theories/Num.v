(** * Numeric layer

    Every numeric function of the library is modelled once, generically over
    the operations collected in [Num], and instantiated at exact reals ([R]),
    at reals with IEEE special values ([fl]) and at n-dimensional arrays of
    those ([tens]).  Modelled external layer: the subset of
    numpy / PyTensor used by src/exoplanet (elementwise arithmetic,
    comparisons, [switch], [zeros_like], [shape_padright], [squeeze]).
    Simplifications: finite arithmetic is exact (no rounding, no overflow),
    zero is unsigned, [np.pi] is the real number [PI]. *)
From Coq Require Import Reals List Bool Arith Lia Lra ZArith String.
Import ListNotations.
Open Scope R_scope.

(** ** Exceptions as values *)
Inductive exn : Type :=
| ValueError | TypeErr | NotImpl | ShapeErr | UnitErr | AssertErr
| ImportErr | IndexErr | LinAlgErr | AttrErr | OutOfFuel.

Inductive res (A : Type) : Type := Ok (a : A) | Err (e : exn).
Arguments Ok {A} a.
Arguments Err {A} e.

Definition rbind {A C} (x : res A) (f : A -> res C) : res C :=
  match x with Ok a => f a | Err e => Err e end.
Definition rmap {A C} (f : A -> C) (x : res A) : res C :=
  match x with Ok a => Ok (f a) | Err e => Err e end.
Notation "x <- e ;; f" := (rbind e (fun x => f))
  (at level 61, e at next level, right associativity).

(** ** Operations *)
Class Num (T B : Type) := {
  nlit : R -> T;                      (* a literal / python float *)
  nadd : T -> T -> T;
  nsub : T -> T -> T;
  nmul : T -> T -> T;
  ndiv : T -> T -> T;
  nneg : T -> T;
  nsqrt : T -> T;
  nsin : T -> T;
  ncos : T -> T;
  nasin : T -> T;
  nacos : T -> T;
  natan2 : T -> T -> T;               (* arctan2 (y, x) *)
  nexp : T -> T;
  nlog : T -> T;
  nabs : T -> T;
  nfloor : T -> T;
  nmod : T -> T -> T;                 (* python modulo, sign of the divisor *)
  npowr : T -> T -> T;                (* x ** y, y not an integer literal *)
  nkepler_sin : T -> T -> T;          (* ops.kepler(M, e)[0] *)
  nkepler_cos : T -> T -> T;          (* ops.kepler(M, e)[1] *)
  nzl : T -> T;                       (* zeros_like *)
  npadr : T -> T;                     (* shape_padright *)
  nsqz : T -> T;                      (* squeeze *)
  nlt : T -> T -> B;
  nle : T -> T -> B;
  nband : B -> B -> B;
  nsw : B -> T -> T -> T              (* switch (cond, a, b) *)
}.

Declare Scope num_scope.
Delimit Scope num_scope with num.
Notation "x + y" := (nadd x y) : num_scope.
Notation "x - y" := (nsub x y) : num_scope.
Notation "x * y" := (nmul x y) : num_scope.
Notation "x / y" := (ndiv x y) : num_scope.
Notation "- x" := (nneg x) : num_scope.
Notation "# r" := (nlit r%R) (at level 5, r at level 4, format "# r") : num_scope.

(** Integer power [x ** n], n a literal. *)
Fixpoint npw {T B} {N : Num T B} (x : T) (n : nat) : T :=
  match n with
  | O => nlit 1
  | S O => x
  | S n' => nmul x (npw x n')
  end.
Notation "x ^ n" := (npw x n) : num_scope.

(** ** Real functions not in the standard library *)
Definition Rltb (x y : R) : bool := if Rlt_dec x y then true else false.
Definition Rleb (x y : R) : bool := if Rle_dec x y then true else false.
Definition Reqb (x y : R) : bool := if Req_EM_T x y then true else false.

(** floor, as an integer and as a real *)
Definition Zfloor (x : R) : Z := Int_part x.
Definition Zceil (x : R) : Z := (- Zfloor (- x))%Z.
Definition Rfloor (x : R) : R := IZR (Zfloor x).

(** numpy / PyTensor [mod]: [x - y * floor (x / y)] *)
Definition Rmodulo (x y : R) : R := x - y * Rfloor (x / y).

(** numpy [arctan2 (y, x)] with unsigned zero *)
Definition Ratan2 (y x : R) : R :=
  if Rlt_dec 0 x then atan (y / x)
  else if Rlt_dec x 0 then
         (if Rle_dec 0 y then atan (y / x) + PI else atan (y / x) - PI)
       else if Rlt_dec 0 y then PI / 2
            else if Rlt_dec y 0 then - (PI / 2) else 0.

(** [x ** y] for a non-integer exponent: 0 ** y = 0 for y > 0 *)
Definition Rpowr (x y : R) : R :=
  if Rlt_dec 0 x then Rpower x y
  else if Req_EM_T y 0 then 1 else 0.
