(** * Specification vocabulary: arrays of times of any shape *)
From Coq Require Import Reals List Bool Arith ZArith.
From Verif Require Import Num CoreOps Inst M_units M_kepler M_tensor M_limbdark Spec_orbit Spec_array Spec_light Spec_undef.
Import ListNotations.

(** t, an array of shape s, and t', an array of shape s', hold the same numbers
    in the same (row-major) order; shapes are written last axis first *)
Record same_list (s : shape) (t : tens) (s' : shape) (t' : tens) : Prop := {
  sl_shape : ash t = Ok s; sl_shape' : ash t' = Ok s'; sl_wf : twf t; sl_wf' : twf t';
  sl_size : prod s = prod s';
  sl_at : forall q, (q < prod s)%nat -> flat t q = flat t' q }.
(** results with one number for each time and each of n planets as functions of
    the times: the shape is that of the times with n appended, axes of length one
    removed, and the numbers and their order do not depend on the shape of the
    array of times *)
Definition any_shape (n : nat) (F : tens -> tens) : Prop :=
  forall s t s' t', same_list s t s' t' ->
  ash (F t) = Ok (squeezed (n :: s)) /\ ash (F t') = Ok (squeezed (n :: s')) /\
  forall q, (q < n * prod s)%nat -> flat (F t) q = flat (F t') q.
Definition any_shape3 (n : nat) (F : tens -> tens * tens * tens) : Prop :=
  any_shape n (fun t => fst (fst (F t))) /\ any_shape n (fun t => snd (fst (F t))) /\ any_shape n (fun t => snd (F t)).
(** one exposure time for all, or one for every time *)
Definition same_exposures (s : shape) (e : option tens) (s' : shape) (e' : option tens) : Prop :=
  match e, e' with
  | None, None => True
  | Some a, Some a' => same_list [] a [] a' \/ same_list s a s' a'
  | _, _ => False
  end.
(** light curves: the shape is that of the times with n appended *)
Definition any_shape_curve (n : nat) (curve : tens -> option tens -> Z -> Z -> res tens) : Prop :=
  forall s t e s' t' e' osam order, same_list s t s' t' -> same_exposures s e s' e' ->
    (0 <= osam)%Z -> (order = 0 \/ order = 1 \/ order = 2)%Z ->
    exists X X', curve t e osam order = Ok X /\ curve t' e' osam order = Ok X' /\ ash X = Ok (n :: s) /\ ash X' = Ok (n :: s') /\
      forall q, (q < n * prod s)%nat -> flat X q = flat X' q.
