(** * Glue and examples for P_light *)
From Coq Require Import Reals List Bool Arith ZArith Lra Lia Psatz String.
From Coquelicot Require Import Coquelicot.
From Verif Require Import Num CoreOps Inst CoreFlux M_units M_kepler M_fin M_tensor M_simple M_ttv M_limbdark Spec_orbit Spec_params Spec_array Spec_simple Spec_light
  Ex_orbit Ex_system L_params3 L_fl L_transit3 L_transit6 L_simple2 L_flux L_light1 L_light5 L_light7 L_light8.
Import ListNotations.
Local Notation length := List.length.
Open Scope R_scope.

Lemma coefficient_vector : forall u u1 u2, ash u = Ok [2%nat] -> aget u (at_planet 0) = Fin u1 -> aget u (at_planet 1) = Fin u2 ->
  ld_init_vector u = Ok (ld_init (Fin u1) (Fin u2)).
Proof.
  intros u u1 u2 E V1 V2. unfold ld_init_vector. rewrite E. rewrite <- V1, <- V2. reflexivity.
Qed.
Lemma coefficient_length : forall u s, ash u = Ok s -> s <> [2%nat] -> ld_init_vector u = Err (if list_eq_dec Nat.eq_dec s [] then IndexErr else AssertErr).
Proof.
  intros u s E H. unfold ld_init_vector. rewrite E. destruct (list_eq_dec Nat.eq_dec s []) as [->|N]; [reflexivity|].
  destruct s as [|[|[|[|d]]] [|e s]]; try reflexivity; contradiction.
Qed.
Lemma disk_example : disk_flux (3 / 10) (2 / 10) <> 0.
Proof. assert (H := proj2 (kipping_bright (3 / 10) (2 / 10) ltac:(lra) ltac:(lra) ltac:(lra))). lra. Qed.
Lemma disk_zero_example : disk_flux 2 2 = 0.
Proof. rewrite disk_value. field. Qed.
Lemma flux_value : forall u1 u2 b r los i bi ri li, disk_flux u1 u2 <> 0 ->
  aget b i = Fin bi -> aget r i = Fin ri -> aget los i = Fin li -> 0 < li ->
  aget (compute_light_curve (ld_init (Fin u1) (Fin u2)) b r (Some los)) i =
    Fin (RInt (fun rho => intensity u1 u2 (sqrt (1 - rho * rho)) * (2 * PI - hidden_angle (Rabs bi) (Rabs ri) rho) * rho) 0 1 / disk_flux u1 u2 - 1).
Proof.
  intros u1 u2 b r los i bi ri li Hd Hb Hr Hl L. rewrite (flux_elt u1 u2 b r los i bi ri li Hd Hb Hr Hl). unfold rel_flux. destruct (Rlt_dec 0 li); [reflexivity|contradiction].
Qed.
Lemma bright_example : disk_flux (3 / 10) (2 / 10) <> 0 /\ bright (3 / 10) (2 / 10) /\ (forall mu, 0 < mu <= 1 -> 0 < intensity (3 / 10) (2 / 10) mu) /\
  0 < 1 / 10 /\ Rabs (1 / 2) < 1 + 1 / 10 /\ 1 + Rabs (1 / 10) <= Rabs 2.
Proof.
  split; [apply disk_example|]. split; [apply kipping_bright; lra|]. split; [intros mu H; unfold intensity; nra|]. rewrite !Rabs_pos_eq by lra. lra.
Qed.
Lemma light_example : exists os o, disk_flux (3 / 10) (2 / 10) <> 0 /\ consts_ok ek /\
  system ek 2 (ex_sys_args 2 ex_bs) (fun j => ex_b_args (ex_bs j)) os /\ kep_init ek (ex_sys_args 2 ex_bs) = Ok o /\
  elements 2 (vector 2 (fun _ => 1 / 10)) (fun _ => 1 / 10) /\ is_vector 3 (vector 3 INR) /\
  (forall m, (m < 3)%nat -> aget (vector 3 INR) (at_time m) = Fin (INR m)) /\
  (forall j, (j < 2)%nat -> ka_ecc (ex_b_args (ex_bs j)) = None /\ o_r_star (os j) + 1 / 10 < o_a (os j) /\ 0 <= o_sin_incl (os j)) /\
  transits ek (os 0%nat) (1 / 10) (INR 2) /\ ~ transits ek (os 1%nat) (1 / 10) (INR 2).
Proof.
  destruct transit_example as (os & E1 & E2 & _ & _ & E5 & E6 & E7 & E8 & E9). destruct (system_orbit _ _ _ _ _ E1 E2) as (o & Ho & _).
  exists os, o. split; [apply disk_example|]. split; [exact E1|]. split; [exact E2|]. split; [exact Ho|]. split; [apply elements_vector|]. split; [exact E5|]. split; [exact E6|].
  split; [intros j Hj; destruct (E7 j Hj) as (A & _ & B & C); split; [exact A|split; assumption]|]. split; assumption.
Qed.
Lemma stencil_example : exists x w, stencil 7 2 = Ok (x, w) /\ nth 1 w 0 = 4 / 18 /\ nth 1 x 0 = -1 / 3.
Proof.
  unfold stencil. change (odd_number 7) with (@Ok nat 7%nat). cbn [rbind Z.eqb]. eexists _, _. split; [reflexivity|]. cbn. split; [field|]. replace (0.5 - -0.5) with 1 by lra. lra.
Qed.
Lemma lipschitz_example : lipschitz_during Rabs 1 0 1 /\ exists x w, stencil 7 0 = Ok (x, w).
Proof.
  split; [|eexists _, _; reflexivity]. intros s s' _ _. rewrite Rmult_1_l. apply Rabs_triang_inv2.
Qed.
Lemma ror_nan : forall u1 u2 d b, 1 < Rabs b -> approx_ror (Fin u1) (Fin u2) (Fin d) (Fin b) = (NaN, NaN).
Proof.
  intros u1 u2 d b H. assert (B : 1 - b * b < 0). { destruct (Rcase_abs b) as [L|L]; [rewrite Rabs_left in H by exact L|rewrite Rabs_right in H by exact L]; nra. }
  unfold approx_ror. cbn [nlit NumF nsub nmul ndiv npw nsqrt fmul fsub fdiv fneg fadd].
  rewrite (Reqb_ne 6 0), (Reqb_ne 12 0) by lra. unfold fsub. cbn [fmul fsub fdiv fneg fadd].
  assert (E : fsqrt (Fin (1 + - (b * b))) = NaN) by (cbn; unfold Rltb; destruct (Rlt_dec (1 + - (b * b)) 0); [reflexivity|lra]). rewrite E. reflexivity.
Qed.
Lemma ror_example : twf (vector 3 (fun _ => 1 / 100)) /\ inside [3%nat] (at_time 1) /\ Rabs (1 / 2) <= 1 /\ 0 < disk_flux (3 / 10) (2 / 10) /\
  0 < intensity (3 / 10) (2 / 10) (sqrt (1 - 1 / 2 * (1 / 2))).
Proof.
  split; [apply vector_is|]. split; [intros [|k] Hk; cbn in *; lia|]. split; [rewrite Rabs_pos_eq; lra|]. split; [apply kipping_bright; lra|].
  assert (P := sqrt_pos (1 - 1 / 2 * (1 / 2))). assert (Q : sqrt (1 - 1 / 2 * (1 / 2)) <= 1) by (eapply Rle_trans; [apply (sqrt_le_1 _ 1); lra|rewrite sqrt_1; lra]). unfold intensity. nra.
Qed.
Lemma exposures_example : exposures 3 (vector 3 (fun _ => 1 / 100)) (fun _ => 1 / 100) /\ exposures 3 (scalar (1 / 100)) (fun _ => 1 / 100) /\
  simple_system 2 (ex_simples (fun j => INR j / 2)) (fun j => ex_simple (INR j / 2)) /\ (forall j, (j < 2)%nat -> simple_ok (ex_simple (INR j / 2))) /\
  elements 2 (vector 2 (fun _ => 1 / 10)) (fun _ => 1 / 10) /\ prod [3%nat] <> 2%nat.
Proof.
  split; [apply (vector_exp 3 (fun _ => 1 / 100))|]. split; [apply (one_exp 3 (Some (1 / 100)))|]. split; [apply simple_example|]. split; [apply simple_example|]. split; [apply elements_vector|discriminate].
Qed.
Lemma lc_message : forall (A : orbit_api) (r t : tens) orbit' r' t',
  missing_argument None r' t' = Some "orbit"%string /\ missing_argument (Some A) None t' = Some "r"%string /\
  missing_argument (Some A) (Some r) None = Some "t"%string /\
  (missing_argument orbit' r' t' = None <-> orbit' <> None /\ r' <> None /\ t' <> None).
Proof.
  intros A r t orbit' r' t'. split; [reflexivity|]. split; [reflexivity|]. split; [reflexivity|].
  destruct orbit', r', t'; cbn; split; intro H; try discriminate H; try reflexivity; try (destruct H as (H1 & H2 & H3); congruence).
  split; [discriminate|split; discriminate].
Qed.
Lemma order_example : elements 2 (vector 2 (fun _ => 1 / 10)) (fun _ => 1 / 10) /\ is_vector 3 (vector 3 INR) /\ ~ (3 = 0 \/ 3 = 1 \/ 3 = 2)%Z.
Proof. split; [apply elements_vector|]. split; [apply vector_is|]. lia. Qed.
