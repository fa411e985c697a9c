(** * Specification vocabulary: the lists given to TTVOrbit *)
From Coq Require Import Reals List Bool Arith ZArith Sorted String.
From Verif Require Import Num CoreOps Inst M_units M_kepler M_kwargs M_fin M_tensor M_ttv Spec_orbit Spec_params Spec_array Spec_ttv.
Import ListNotations.
Open Scope R_scope.

(** a vector with n entries; a scalar has none that could be looked up *)
Definition has_entries (a : tens) (n : nat) : Prop := ash a = Ok [n] \/ (ash a = Ok [] /\ n = 0%nat).
(** transit_inds, or 0, 1, 2, ... for every planet *)
Definition labels_of {A} (ttvs : list (list A)) (inds : option (list (list Z))) : list (list Z) :=
  match inds with None => map (fun l => map Z.of_nat (seq 0 (List.length l))) ttvs | Some l => l end.
(** one value for every label, or one for all of them *)
Definition counts_fit {A} (z : list Z) (l : list A) : Prop := List.length l = List.length z \/ List.length l = 1%nat.
(** the largest label m is not negative, and no label is below - (m + 1) *)
Definition in_range (z : list Z) : Prop :=
  exists m, In m z /\ (0 <= m)%Z /\ forall y, In y z -> (- (m + 1) <= y <= m)%Z.
Definition fits_labels {A} (z : list Z) (l : list A) : Prop := counts_fit z l /\ in_range z.
(** the error for labels and values that do not fit *)
Definition label_error {A} (z : list Z) (l : list A) (e : exn) : Prop :=
  (~ counts_fit z l /\ e = ShapeErr) \/
  (counts_fit z l /\ z = [] /\ e = ValueError) \/
  (counts_fit z l /\ z <> [] /\ ~ in_range z /\ e = IndexErr).

(** o is a TTVOrbit made from fewer lists than planets: the transits tts 0, ...,
    tts (m-1) of m lists, and the n underlying Keplerian orbits os *)
Record short_system (k : consts) (n m : nat) (o : ttvorbit) (os : nat -> orbit R) (tts : nat -> list R) : Prop := {
  sh_made : exists x, ttv_init k x = Ok o;
  sh_under : exists x xs, kep_init k x = Ok (tt_orbit o) /\ system k n x xs os;
  sh_less : (0 < m < n)%nat;
  sh_all : tt_all o = map (fun j => map Fin (tts j)) (seq 0 m);
  sh_inc : forall j, (j < m)%nat -> StronglySorted Rlt (tts j);
  sh_period : exists P, planet_values n (tt_period o) P /\ forall j, (j < m)%nat -> 0 < P j }.
