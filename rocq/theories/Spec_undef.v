(** * Specification vocabulary: times, radii and exposure times that are not numbers *)
From Coq Require Import Reals List Bool Arith ZArith.
From Verif Require Import Num CoreOps Inst M_units M_kepler M_tensor M_limbdark Spec_orbit Spec_array Spec_light.
Import ListNotations.
Open Scope R_scope.

(** NaN or an infinity *)
Definition undefined (v : fl) : Prop := forall x, v <> Fin x.
Definition nan3 : fl * fl * fl := (NaN, NaN, NaN).
(** the exposure time of every observation: none, one number for all of them,
    or one each *)
Definition exposure_values (N : nat) (e : option tens) (ev : nat -> fl) : Prop :=
  match e with
  | None => forall m, ev m = Fin 0
  | Some e => twf e /\ ((ash e = Ok [] /\ forall m, ev m = aget e ix0) \/
                        (ash e = Ok [N] /\ forall m, (m < N)%nat -> ev m = aget e (at_time m)))
  end.
(** exposure times given in both calls or in neither *)
Definition both_or_neither {A} (e e' : option A) : Prop := e = None <-> e' = None.
(** a single exposure time or none *)
Definition single (e : option tens) : Prop := forall a, e = Some a -> ash a = Ok [].
(** a light curve of N observations of n planets as a function of the times and
    the exposure times: an observation whose time or exposure time is undefined
    shows no planet, and every observation depends only on its own time and
    exposure time *)
Definition skips_undefined (n : nat) (allowed : option tens -> Prop) (curve : tens -> option tens -> Z -> Z -> res tens) : Prop :=
  forall N t e ev t' e' ev' osam order,
    is_vector N t -> is_vector N t' -> exposure_values N e ev -> exposure_values N e' ev' -> both_or_neither e e' ->
    allowed e -> allowed e' -> (0 <= osam)%Z -> (order = 0 \/ order = 1 \/ order = 2)%Z ->
    exists X X', curve t e osam order = Ok X /\ curve t' e' osam order = Ok X' /\ ash X = Ok [n; N] /\ ash X' = Ok [n; N] /\
      forall m j, (m < N)%nat -> (j < n)%nat ->
        (undefined (aget t (at_time m)) \/ undefined (ev m) -> aget X (at_tp m j) = Fin 0) /\
        (aget t (at_time m) = aget t' (at_time m) -> ev m = ev' m -> aget X (at_tp m j) = aget X' (at_tp m j)).
(** get_light_curve computes only what in_transit finds: use_in_transit, which
    is by default the opposite of light_delay *)
Definition masks (use : option bool) (light_delay : bool) : bool := match use with None => negb light_delay | Some u => u end.
(** tables of N times and n planets as functions of the times: the row of an
    undefined time is NaN, and every row depends only on its own time *)
Definition nan_rows (n : nat) (F : tens -> tens) : Prop :=
  forall N t t', is_vector N t -> is_vector N t' ->
  exists f f', is_table n N (F t) f /\ is_table n N (F t') f' /\ forall m j, (m < N)%nat -> (j < n)%nat ->
    (undefined (aget t (at_time m)) -> f m j = NaN) /\ (aget t (at_time m) = aget t' (at_time m) -> f m j = f' m j).
Definition nan_rows3 (n : nat) (F : tens -> tens * tens * tens) : Prop :=
  nan_rows n (fun t => fst (fst (F t))) /\ nan_rows n (fun t => snd (fst (F t))) /\ nan_rows n (fun t => snd (F t)).
(** in_transit lists defined times only, except where it gives up and lists
    every time *)
Definition finds_defined (n : nat) (surrenders : bool) (find : tens -> option tens -> res (list nat)) : Prop :=
  forall N t e ev, is_vector N t -> exposure_values N e ev -> single e ->
  exists l, find t e = Ok l /\ ((forall m, In m l -> (m < N)%nat /\ ~ undefined (aget t (at_time m))) \/ (surrenders = true /\ l = seq 0 N)).
