(** * Systems whose light curves are integrated and interpolated *)
From Coq Require Import Reals Lra Lia List Bool Arith ZArith.
From Coquelicot Require Import Coquelicot.
From Verif Require Import Num CoreOps Inst CoreFlux M_units M_kepler M_fin M_tensor M_limbdark M_simple M_ttv M_interpolated M_compose Spec_orbit Spec_params Spec_array Spec_light Spec_simple Spec_delay Spec_interp Spec_lip Spec_accuracy
  L_light8 L_accuracy L_interp3 L_compose Ex_orbit Ex_system Ex_sym L_simple2 Ex_lip Ex_compose L_compose2.
Import ListNotations.
Open Scope R_scope.

Lemma exposed_example : exists os o, disk_flux (3 / 10) (2 / 10) <> 0 /\ consts_ok ek /\
  system ek 2 (ex_full_sys 2 ex_bs 2 1 1 (1 / 2)) (fun j => ex_full_args (ex_bs j) 2 1 1 (1 / 2)) os /\
  kep_init ek (ex_full_sys 2 ex_bs 2 1 1 (1 / 2)) = Ok o /\
  elements 2 (vector 2 (fun _ => 1 / 10)) (fun _ => 1 / 10) /\
  (forall j, (j < 2)%nat -> 0 <= 1 / 10 /\ o_r_star (os j) + 1 / 10 <= o_a (os j) * (1 - ecc_of (os j))) /\
  is_vector 3 (vector 3 INR) /\ (forall m, (m < 3)%nat -> aget (vector 3 INR) (at_time m) = Fin (INR m)) /\
  exposures 3 (scalar (1 / 4)) (fun _ => 1 / 4) /\ centred 7 0 /\ centred 2 1 /\ centred 3 2 /\ rule_error 7 2 9 (1 / 4) = 5 / 48.
Proof.
  destruct lip_example as (os & o & A1 & A2 & A3 & A4 & A5 & A6 & A7 & A8 & _ & _ & A9 & _). exists os, o.
  split; [exact A1|]. split; [exact A2|]. split; [exact A3|]. split; [exact A4|]. split; [exact A5|]. split; [exact A6|]. split; [exact A7|]. split; [exact A8|]. split; [exact A9|].
  unfold centred. split; [lia|]. split; [lia|]. split; [lia|]. unfold rule_error. cbn [Z.eqb Pos.eqb]. lra.
Qed.
Lemma interpolated_example : exists o o', system ek 1 (ex_scalar_args 0) (fun _ => ex_b_args 0) (fun _ => o) /\
  kep_init ek (ex_scalar_args 0) = Ok o' /\ disk_flux (3 / 10) (2 / 10) <> 0 /\ consts_ok ek /\
  elements 1 (scalar (1 / 10)) (fun _ => 1 / 10) /\
  (0 <= 1 / 10 /\ o_r_star o + 1 / 10 <= o_a o * (1 - ecc_of o)) /\
  (ka_ecc (ex_b_args 0) = None /\ 0 <= 1 / 10 /\ o_r_star o + 1 / 10 < o_a o /\ 0 <= o_sin_incl o) /\
  counted (Some 1%Z) None 1 /\ ash (o_t0 o') = Ok [] /\ ash (o_period o') = Ok [].
Proof.
  destruct eclipse_interp_example as (o & o' & A1 & A2 & A3 & A4 & _ & _ & _ & A5 & A6 & _ & A7 & A8). exists o, o'.
  destruct A5 as (B1 & B2 & B3). split; [exact A1|]. split; [exact A2|]. split; [exact A3|]. split; [exact A4|].
  split. { split; [exists []; split; reflexivity|]. intros j Hj. reflexivity. }
  assert (E : o_ecc o = None) by (apply (L_transit4.kep_circ _ _ _ (sy_init _ _ _ _ _ A1 0%nat ltac:(lia))); exact B1).
  split. { split; [lra|]. unfold ecc_of. rewrite E. lra. }
  split. { split; [exact B1|]. split; [lra|]. split; assumption. }
  split; [exact A6|]. split; assumption.
Qed.
Lemma simple_exposed_example : simple_system 1 ex_one_simple (fun _ => ex_simple (1 / 2)) /\ simple_ok (ex_simple (1 / 2)) /\
  (0 <= 1 / 10 <= dflt 0 (sa_ror (ex_simple (1 / 2))) * dflt 1 (sa_r_star (ex_simple (1 / 2)))).
Proof. destruct simple_interp_example as (A & B & _). split; [exact A|]. split; [exact B|]. cbn. lra. Qed.
