(** * C76: the state of star and planets as one array *)
From Coq Require Import Reals List Arith.
From Verif Require Import Num CoreOps Inst M_units M_kepler M_fin M_tensor M_posvel Spec_orbit Spec_params Spec_array Spec_posvel
  Ex_orbit Ex_system L_posvel.
Import ListNotations.
Open Scope R_scope.

(** ** C76 *)
(** one time: the first row is the star, displaced by all planets together, and
    the other rows are the planets *)
Theorem C76_one_time : forall k n x xs os o par tau, consts_ok k -> system k n x xs os ->
  kep_init k x = Ok o ->
  let '(P, V) := get_position_and_velocity k o (kep_warp o) (scalar tau) (option_map scalar par) in
  let g := angular (au_per_R_sun k) par in
  ash P = Ok [3; S n]%nat /\ ash V = Ok [3; S n]%nat /\
  forall c, (c < 3)%nat ->
    aget P (at_tp 0 c) = Fin (total (fun j => comp c (pos k (os j) Star tau par false)) n) /\
    aget V (at_tp 0 c) = Fin (g * total (fun j => comp c (vel (os j) Star tau)) n) /\
    forall j, (j < n)%nat ->
      aget P (at_tp (S j) c) = Fin (comp c (pos k (os j) Planet tau par false)) /\
      aget V (at_tp (S j) c) = Fin (g * comp c (vel (os j) Planet tau)).
Proof. intros; eapply one_time; eassumption. Qed.
Print Assumptions C76_one_time.
(** N times: the axis of the times comes first, so that the first row adds up
    the star's displacements at all the times, one planet at a time, and row
    m + 1 holds the planets at time m *)
Theorem C76_several_times : forall k n x xs os o par N t ts, consts_ok k -> system k n x xs os ->
  kep_init k x = Ok o ->
  is_vector N t -> (forall m, (m < N)%nat -> aget t (at_time m) = Fin (ts m)) ->
  let '(P, V) := get_position_and_velocity k o (kep_warp o) t (option_map scalar par) in
  let g := angular (au_per_R_sun k) par in
  ash P = Ok [3; n; S N]%nat /\ ash V = Ok [3; n; S N]%nat /\
  forall j c, (j < n)%nat -> (c < 3)%nat ->
    aget P (at_rpc 0 j c) = Fin (total (fun m => comp c (pos k (os j) Star (ts m) par false)) N) /\
    aget V (at_rpc 0 j c) = Fin (g * total (fun m => comp c (vel (os j) Star (ts m))) N) /\
    forall m, (m < N)%nat ->
      aget P (at_rpc (S m) j c) = Fin (comp c (pos k (os j) Planet (ts m) par false)) /\
      aget V (at_rpc (S m) j c) = Fin (g * comp c (vel (os j) Planet (ts m))).
Proof. intros; eapply several_times; eassumption. Qed.
Print Assumptions C76_several_times.
Example C76_example : exists os o, consts_ok ek /\ system ek 2 (ex_sys_args 2 ex_bs) (fun j => ex_b_args (ex_bs j)) os /\
  kep_init ek (ex_sys_args 2 ex_bs) = Ok o /\ is_vector 3 (vector 3 INR) /\
  (forall m, (m < 3)%nat -> aget (vector 3 INR) (at_time m) = Fin (INR m)) /\ 0 < o_m_planet (os 0%nat) /\ 0 < o_m_star (os 1%nat).
Proof. exact posvel_example. Qed.
