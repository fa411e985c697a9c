(** * Specification vocabulary: cutting, joining and reordering observations *)
From Coq Require Import Reals List Bool Arith ZArith Sorted.
From Verif Require Import Num CoreOps Inst M_units M_kepler M_tensor M_limbdark Spec_orbit Spec_array Spec_light Spec_undef.
Import ListNotations.
Open Scope R_scope.

(** T holds the N times t followed by the N' times t' *)
Record joined (N : nat) (t : tens) (N' : nat) (t' T : tens) : Prop := {
  jo_left : is_vector N t; jo_right : is_vector N' t'; jo_both : is_vector (N + N') T;
  jo_first : forall m, (m < N)%nat -> aget T (at_time m) = aget t (at_time m);
  jo_rest : forall m, (m < N')%nat -> aget T (at_time (N + m)) = aget t' (at_time m) }.
(** tables of times and n planets as functions of the times: a row depends on its
    own time only, not on its place, the other times or how many there are *)
Definition row_by_row (n : nat) (F : tens -> tens) : Prop :=
  forall N t N' t', is_vector N t -> is_vector N' t' ->
  exists f f', is_table n N (F t) f /\ is_table n N' (F t') f' /\ forall m m' j, (m < N)%nat -> (m' < N')%nat -> (j < n)%nat ->
    aget t (at_time m) = aget t' (at_time m') -> f m j = f' m' j.
Definition row_by_row3 (n : nat) (F : tens -> tens * tens * tens) : Prop :=
  row_by_row n (fun t => fst (fst (F t))) /\ row_by_row n (fun t => snd (fst (F t))) /\ row_by_row n (fun t => snd (F t)).
(** lists of indices as functions of the times: increasing, in range, and an index
    is listed or not according to its own time *)
Definition found_one_by_one (find : tens -> res (list nat)) : Prop :=
  forall N t N' t', is_vector N t -> is_vector N' t' ->
  exists l l', find t = Ok l /\ find t' = Ok l' /\ StronglySorted lt l /\ (forall m, In m l -> (m < N)%nat) /\
    forall m m', (m < N)%nat -> (m' < N')%nat -> aget t (at_time m) = aget t' (at_time m') -> (In m l <-> In m' l').
(** a light curve of n planets as a function of times and exposure times: every
    observation depends on its own time and exposure time only *)
Definition observed_one_by_one (n : nat) (allowed : option tens -> Prop) (curve : tens -> option tens -> Z -> Z -> res tens) : Prop :=
  forall N t e ev N' t' e' ev' osam order,
    is_vector N t -> is_vector N' t' -> exposure_values N e ev -> exposure_values N' e' ev' -> both_or_neither e e' ->
    allowed e -> allowed e' -> (0 <= osam)%Z -> (order = 0 \/ order = 1 \/ order = 2)%Z ->
    exists X X', curve t e osam order = Ok X /\ curve t' e' osam order = Ok X' /\ ash X = Ok [n; N] /\ ash X' = Ok [n; N'] /\
      forall m m' j, (m < N)%nat -> (m' < N')%nat -> (j < n)%nat -> aget t (at_time m) = aget t' (at_time m') -> ev m = ev' m' ->
        aget X (at_tp m j) = aget X' (at_tp m' j).
