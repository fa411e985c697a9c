(** * A planet with an impact parameter no orbit can have *)
From Coq Require Import Reals Lra Lia Bool List Arith ZArith Psatz.
From Coquelicot Require Import Coquelicot.
From Verif Require Import Num CoreOps Inst M_units M_kepler M_fin M_tensor Spec_orbit Spec_params Spec_array Spec_reach L_real L_orbit
  Ex_orbit Ex_system L_params4 L_array L_transit6.
Import ListNotations.
Open Scope R_scope.

(** one planet crossing the centre of the star, one 100 stellar radii from it
    at conjunction; the semimajor axis is below 100 stellar radii *)
Definition ex_rb (j : nat) : R := match j with O => 0 | _ => 100 end.
Definition ex_unreached (j : nat) : option R := match j with O => None | _ => Some 100 end.
Lemma ex_a_below : Rpowr (2942.2062175044193 * (1 + 1 / 2) * (10 * 10) / (4 * (PI * PI))) (1 / 3) < 100.
Proof.
  assert (H := PI2_3_2). set (X := 2942.2062175044193 * (1 + 1 / 2) * (10 * 10) / (4 * (PI * PI))).
  assert (HX : 0 < X < 1000000).
  { assert (9 < PI * PI) by nra. unfold X. split; [apply Rdiv_lt_0_compat; lra|]. apply Rmult_lt_reg_r with (4 * (PI * PI)); [lra|]. unfold Rdiv. rewrite Rmult_assoc, Rinv_l; lra. }
  unfold Rpowr. destruct (Rlt_dec 0 X); [|lra].
  assert (E : Rpower 1000000 (1 / 3) = 100).
  { replace 1000000 with (Rpower 100 3). 2:{ replace 3 with (INR 3) by (cbn; lra). rewrite Rpower_pow; cbn; lra. }
    rewrite Rpower_mult. replace (3 * (1 / 3)) with 1 by field. apply Rpower_1. lra. }
  rewrite <- E. unfold Rpower. apply exp_increasing. assert (ln X < ln 1000000) by (apply ln_increasing; lra). lra.
Qed.
Lemma ex_unreachable : exists o, unreachable ek (ex_b_args 100) o 100 /\ o_ecc o = None.
Proof.
  destruct (ex_b 0 ltac:(lra)) as (o & A1 & A2 & _ & _ & A3 & _ & _ & _ & A4 & _). exists o. split; [|exact A3]. constructor; try reflexivity; try assumption.
  unfold separation, ecc_of, sinw_of. rewrite A3, A4.
  assert (Ea : o_a o < 100). { assert (B := ex_a_below). revert A1. intro A1. apply (f_equal (fun r => match r with Ok o => o_a o | Err _ => 0 end)) in A1. rewrite <- A1. cbn. simR. exact B. }
  rewrite Rabs_pos_eq by lra. lra.
Qed.
Lemma reach_example : exists os o, consts_ok ek /\ mixed_system ek 2 (ex_sys_args 2 ex_rb) (fun j => ex_b_args (ex_rb j)) os ex_unreached /\
  kep_init ek (ex_sys_args 2 ex_rb) = Ok o /\ (forall j, (j < 2)%nat -> ka_ecc (ex_b_args (ex_rb j)) = None) /\
  (forall j, (j < 2)%nat -> ex_unreached j = None -> o_r_star (os j) + 1 / 10 < o_a (os j) /\ 0 <= o_sin_incl (os j)) /\
  is_vector 3 (vector 3 INR) /\ (forall m, (m < 3)%nat -> aget (vector 3 INR) (at_time m) = Fin (INR m)).
Proof.
  destruct (ex_b 0 ltac:(lra)) as (o0 & A1 & A2 & _ & _ & A3 & _ & _ & _ & A4 & A5 & A6). destruct ex_unreachable as (o1 & U & _).
  destruct (kep_init ek (ex_sys_args 2 ex_rb)) as [o|] eqn:E; [|discriminate E].
  exists (fun j => match j with O => o0 | _ => o1 end), o. split; [exact ek_ok|]. split; [|split; [reflexivity|split; [reflexivity|split; [|split; [apply vector_is|apply vector_at]]]]].
  - constructor.
    + lia.
    + apply ex_sys_planet.
    + intros [|[|j]] Hj; [| |lia]; reflexivity.
    + intros [|[|j]] Hj; [| |lia]; cbn.
      * split; [exact A1|]. split; [exact A2|]. left. reflexivity.
      * exact U.
  - intros [|[|j]] Hj; [| |lia]; cbn; [intros _; lra|discriminate].
Qed.
