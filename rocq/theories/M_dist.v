(** * Model of src/exoplanet/distributions/distributions.py

    PyMC is external: a call that declares something in a model is recorded as
    a statement.  Values are functions of the values of the declared random
    variables. *)
From Coq Require Import Reals List Bool Arith ZArith String.
From Verif Require Import Num CoreOps Inst M_kwargs M_tensor M_limbdark.
Import ListNotations.
Local Notation length := List.length.
Open Scope R_scope.

(** ** python values and dictionaries *)
(** PVar: a random variable declared before; PDist: an unnamed distribution
    ([cls.dist( **kw )]); POther: anything else (dims, models, ...) *)
Inductive pyv :=
| PNone
| PNum (x : tens)
| PInt (n : nat)
| PShape (s : shape)
| PVar (name : string)
| PDist (cls : string) (kw : list (string * pyv))
| PStr (s : string)
| POther (n : nat).
Definition dict := list (string * pyv).
(** [d.get(k)]: [lookup] of M_kwargs.v *)
Definition dget (k : string) (d : dict) : option pyv := lookup k d.
Definition ddel (k : string) (d : dict) : dict := filter (fun p => negb (String.eqb (fst p) k)) d.
(** [d[k] = v] *)
Definition dset (k : string) (v : pyv) (d : dict) : dict := (k, v) :: ddel k d.
(** [d.pop(k, default)] *)
Definition dpop (k : string) (default : pyv) (d : dict) : pyv * dict :=
  (match dget k d with Some v => v | None => default end, ddel k d).
(** [f(k1=v1, ..., **d)]: a repeated keyword is a TypeError *)
Definition dmerge (explicit : dict) (d : dict) : res dict :=
  if existsb (fun p => match dget (fst p) d with Some _ => true | None => false end) explicit
  then Err TypeErr else Ok (explicit ++ d).

(** ** recorded statements *)
Definition env := string -> tens.
Inductive stmt :=
| Free (scope : list string) (name cls : string) (kw : dict)      (* pm.cls(name, **kw) *)
| Potential (scope : list string) (name : string) (f : env -> tens)
| Determ (scope : list string) (name : string) (f : env -> tens)
| Cite (keys : list string) (model : option pyv).                 (* add_citations_to_model *)

(** distributions.py:130-134 and eccentricity.py:240-244, _with_initval *)
Definition with_initval (pymc3 : bool) (kw : dict) : dict :=
  let '(v, kw) := let '(d, kw) := dpop "testval" PNone kw in dpop "initval" d kw in
  dset (if pymc3 then "testval" else "initval")%string v kw.
(** [kwargs.pop("initval", kwargs.pop("testval", default))]: the inner call comes first *)
Definition pop_initval (default : pyv) (kw : dict) : pyv * dict :=
  let '(d, kw) := dpop "testval" default kw in dpop "initval" d kw.
(** [np.zeros(shape)] *)
Definition np_zeros (s : pyv) : res tens :=
  match s with
  | PShape s => Ok (mkA (Ok s) (fun _ => Fin 0))
  | PInt n => Ok (mkA (Ok [n]) (fun _ => Fin 0))
  | _ => Err TypeErr
  end.
(** a numeric argument.  Simplified: other objects are a TypeError. *)
Definition num_of (v : pyv) : res tens := match v with PNum x => Ok x | _ => Err TypeErr end.
(** [x[n]]: a row of the first axis *)
Definition row (x : tens) (n : nat) : res tens :=
  match ash x with
  | Err e => Err e
  | Ok [] => Err IndexErr
  | Ok s => if Nat.ltb n (last s O)
            then Ok (mkA (Ok (removelast s)) (fun i => aget x (set_ix (length s - 1) n i)))
            else Err IndexErr
  end.
(** [shape_kwarg] as a tuple *)
Definition tuple_of (v : pyv) : res shape :=
  match v with PShape s => Ok s | PInt n => Ok [n] | _ => Err TypeErr end.

(** the functions use the arithmetic of arrays only through [NT], so that they
    can be run with rounding errors as well *)
Section D.
Variable pymc3 : bool.
Context {NT : Num tens btens}.

(** distributions.py:11-37 *)
Definition angle (name : string) (regularization : option tens) (kw : dict) : res (list stmt * (env -> tens)) :=
  let shape_arg := match dget "shape" kw with Some s => s | None => PShape [] end in   (* 24 *)
  z <- np_zeros shape_arg ;;
  let '(initval, kw) := pop_initval (PNum z) kw in                 (* 25 *)
  v <- num_of initval ;;
  let n1 := ("__" ++ name ++ "_angle1")%string in
  let n2 := ("__" ++ name ++ "_angle2")%string in
  let s1 := Free [] n1 "Normal" (with_initval pymc3 (dset "initval" (PNum (nsin v)) kw)) in   (* 26-28 *)
  let s2 := Free [] n2 "Normal" (with_initval pymc3 (dset "initval" (PNum (ncos v)) kw)) in   (* 29-31 *)
  let pot := match regularization with
             | None => []
             | Some q => [Potential [] (name ++ "_regularization")%string
                            (fun e => (q * nlog (e n1 ^ 2 + e n2 ^ 2))%num)]             (* 32-36 *)
             end in
  let out := fun e : env => natan2 (e n1) (e n2) in
  Ok ([s1; s2] ++ pot ++ [Determ [] name out], out).               (* 37 *)

(** distributions.py:40-75 *)
Definition unit_disk (name_x name_y : string) (kw : dict) : res (list stmt * ((env -> tens) * (env -> tens))) :=
  s <- tuple_of (match dget "shape" kw with Some s => s | None => PShape [] end) ;;      (* 56-59 *)
  z <- np_zeros (PShape (s ++ [2%nat])) ;;
  let '(initval, kw) := pop_initval (PNum z) kw in                 (* 60-62 *)
  v <- num_of initval ;;
  let kw := dset "upper" (PNum (alit (Fin 1))) (dset "lower" (PNum (alit (Fin (-1)))) kw) in   (* 64-65 *)
  v0 <- row v 0 ;;
  let s1 := Free [] name_x "Uniform" (with_initval pymc3 (dset "initval" (PNum v0) kw)) in     (* 66 *)
  v1 <- row v 1 ;;
  let n2 := ("__" ++ name_y ++ "_unit_disk")%string in
  let s2 := Free [] n2 "Uniform"
              (with_initval pymc3 (dset "initval" (PNum (v1 * nsqrt (nlit 1 - v0 ^ 2))%num) kw)) in   (* 67-72 *)
  let norm := fun e : env => nsqrt (nlit 1 - e name_x ^ 2)%num in  (* 73 *)
  let pot := Potential [] (name_y ++ "_jacobian")%string (fun e => nlog (norm e)) in           (* 74 *)
  let y := fun e : env => (e n2 * norm e)%num in
  Ok ([s1; s2; pot; Determ [] name_y y], (fun e => e name_x, y)).  (* 75 *)

(** [stack([a, b], axis=0)] *)
Definition stack2 (a b : tens) : tens :=
  mkA (match ash a, ash b with
       | Ok s, Ok s' => if list_eq_dec Nat.eq_dec s s' then Ok (s ++ [2%nat]) else Err ShapeErr
       | Err e, _ => Err e
       | _, Err e => Err e
       end)
      (fun i => match i (andim a) with O => aget a i | _ => aget b i end).

(** distributions.py:78-102.  Simplified: a zero sum of python floats raises
    ZeroDivisionError; here it is not a number, as for numpy numbers. *)
Definition quad_limb_dark (name : string) (kw : dict) : res (list stmt * (env -> tens)) :=
  let cite := Cite ["kipping13"%string] (dget "model" kw) in       (* 85 *)
  let '(u, kw) := pop_initval (PNum (avec [sqrt (1 / 2); 0])) kw in   (* 87 *)
  u <- num_of u ;;
  u1 <- row u 0 ;;                                                 (* 88 *)
  u2 <- row u 1 ;;                                                 (* 89 *)
  let kw := dset "upper" (PNum (alit (Fin 1))) (dset "lower" (PNum (alit (Fin 0))) kw) in      (* 90-91 *)
  let n1 := ("__" ++ name ++ "_q1")%string in
  let n2 := ("__" ++ name ++ "_q2")%string in
  let s1 := Free [] n1 "Uniform" (with_initval pymc3 (dset "initval" (PNum ((u1 + u2) ^ 2)%num) kw)) in   (* 92-94 *)
  let s2 := Free [] n2 "Uniform"
              (with_initval pymc3 (dset "initval" (PNum (nlit (1 / 2) * u1 / (u1 + u2))%num) kw)) in     (* 95-97 *)
  let out := fun e : env =>
    let sqrtq1 := nsqrt (e n1) in                                  (* 98 *)
    let twoq2 := (nlit 2 * e n2)%num in                            (* 99 *)
    stack2 (sqrtq1 * twoq2)%num (sqrtq1 * (nlit 1 - twoq2))%num in
  Ok ([cite; s1; s2; Determ [] name out], out).                    (* 100-102 *)

(** [broadcast_to(x, s)] *)
Definition broadcast_to (x : tens) (s : shape) : tens :=
  mkA (match ash x with
       | Ok sx => match bc sx s with
                  | Some s' => if list_eq_dec Nat.eq_dec s' s then Ok s else Err ShapeErr
                  | None => Err ShapeErr
                  end
       | Err e => Err e
       end) (aget x).

(** distributions.py:105-127; [ror.shape] is symbolic there *)
Definition impact_parameter (name : string) (ror : tens) (kw : dict) : res (list stmt * (env -> tens)) :=
  let '(bhat, kw) := pop_initval (PNum (alit (Fin (1 / 2)))) kw in (* 115 *)
  bhat <- num_of bhat ;;
  sk <- (if pymc3 then Ok (bhat, kw)
         else sr <- ash ror ;;
              let kw := match dget "shape" kw with Some _ => kw | None => dset "shape" (PShape sr) kw end in   (* 117 *)
              s <- tuple_of (match dget "shape" kw with Some s => s | None => PNone end) ;;    (* 118-119 *)
              Ok (broadcast_to bhat s, kw)) ;;                     (* 120 *)
  let (bhat, kw) := sk in
  let kw := dset "upper" (PNum (alit (Fin 1))) (dset "lower" (PNum (alit (Fin 0))) kw) in      (* 121-122 *)
  let n1 := ("__" ++ name ++ "_impact_parameter")%string in
  let s1 := Free [] n1 "Uniform"
              (with_initval pymc3 (dset "initval" (PNum (bhat / (nlit 1 + ror))%num) kw)) in   (* 123-126 *)
  let out := fun e : env => (e n1 * (nlit 1 + ror))%num in
  Ok ([s1; Determ [] name out], out).                              (* 127 *)
End D.
