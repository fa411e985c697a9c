(** * Specification: consecutive exposures (C97) *)
From Coq Require Import Reals List ZArith.
From Verif Require Import Num CoreOps Inst M_tensor Spec_array Spec_light.
Open Scope R_scope.

(** the odd number of nodes an oversampling factor stands for *)
Definition nodes_of (osam : Z) : Z := (osam + (1 - osam mod 2))%Z.
(** an exposure with factor osam' has the nodes of M consecutive ones with
    factor osam; with orders 1 and 2 neighbours share a node *)
Definition refines (order : Z) (M : nat) (osam osam' : Z) : Prop :=
  if Z.eqb order 0 then nodes_of osam' = (Z.of_nat M * nodes_of osam)%Z else (nodes_of osam' - 1 = Z.of_nat M * (nodes_of osam - 1))%Z.
(** exposure m of N is divided into M equal ones, numbered m * M + i *)
Definition divided (N M : nat) (ts es ts' es' : nat -> R) : Prop :=
  forall m i, (m < N)%nat -> (i < M)%nat ->
    ts' (m * M + i)%nat = ts m - es m / 2 + (INR i + 1 / 2) * (es m / INR M) /\ es' (m * M + i)%nat = es m / INR M.
(** the mean of M numbers *)
Definition mean_of (M : nat) (f : nat -> R) : R := fold_right Rplus 0 (map f (seq 0 M)) / INR M.
(** at every time the light curve of planet j is F j *)
Definition curve_at (n : nat) (lc : tens -> res tens) (F : nat -> R -> R) : Prop :=
  forall N t ts, is_vector N t -> (forall m, (m < N)%nat -> aget t (at_time m) = Fin (ts m)) ->
    exists X, lc t = Ok X /\ light_table n N X (fun m j => F j (ts m)).
(** what is said about the light curves with exposure times, given those without *)
Definition exposures_average (n : nat) (curve : tens -> option tens -> Z -> Z -> res tens) : Prop :=
  exists F, curve_at n (fun t => curve t None 7%Z 0%Z) F /\
  forall N t ts e es osam order, is_vector N t -> (forall m, (m < N)%nat -> aget t (at_time m) = Fin (ts m)) -> exposures N e es ->
    (forall m, (m < N)%nat -> 0 <= es m) -> (0 <= osam)%Z -> (order = 0 \/ order = 1 \/ order = 2)%Z ->
    exists X f, curve t (Some e) osam order = Ok X /\ light_table n N X f /\
      forall m j lo hi, (m < N)%nat -> (j < n)%nat -> (forall s, Rabs (s - ts m) <= es m / 2 -> lo <= F j s <= hi) -> lo <= f m j <= hi.
Definition exposures_stack (n : nat) (curve : tens -> option tens -> Z -> Z -> res tens) : Prop :=
  forall N M t ts e es t' ts' e' es' osam osam' order, (0 < M)%nat ->
    is_vector N t -> (forall m, (m < N)%nat -> aget t (at_time m) = Fin (ts m)) -> exposures N e es ->
    is_vector (N * M) t' -> (forall m, (m < N * M)%nat -> aget t' (at_time m) = Fin (ts' m)) -> exposures (N * M) e' es' ->
    divided N M ts es ts' es' -> (order = 0 /\ 0 <= osam \/ (order = 1 \/ order = 2) /\ 2 <= osam)%Z -> refines order M osam osam' ->
    exists X f X' f', curve t (Some e) osam' order = Ok X /\ light_table n N X f /\
      curve t' (Some e') osam order = Ok X' /\ light_table n (N * M) X' f' /\
      forall m j, (m < N)%nat -> (j < n)%nat -> f m j = mean_of M (fun i => f' (m * M + i)%nat j).
