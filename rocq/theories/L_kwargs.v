(** * Proofs about keyword binding *)
From Coq Require Import Reals Lra List Bool String.
From Verif Require Import Num CoreOps Inst M_units M_kepler M_kwargs Spec_orbit Spec_params L_real L_orbit L_params L_params3.
Import ListNotations.
Open Scope R_scope.

Section S.
Context {T B : Type} {N : Num T B}.

Lemma lookup_skip {A} (n m : string) (v : A) l l' : n <> m ->
  lookup n (l ++ (m, v) :: l') = lookup n (l ++ l').
Proof.
  intros H. induction l as [|[q w] l IH]; cbn.
  - destruct (String.eqb n m) eqn:E; auto. apply String.eqb_eq in E. contradiction.
  - destruct (String.eqb n q); auto.
Qed.

Lemma kwargs_ignored k (name : string) (v : kval T) l l' : ~ In name kepler_keywords ->
  kep_call k (l ++ (name, v) :: l') = kep_call k (l ++ l').
Proof.
  intros H. unfold kep_call, bind_kwargs, kw_num, kw_qty, kw_unit.
  assert (X : forall n, In n kepler_keywords -> lookup n (l ++ (name, v) :: l') = lookup n (l ++ l')).
  { intros n Hn. apply lookup_skip. intros ->. contradiction. }
  rewrite !X by (cbn; tauto). reflexivity.
Qed.
End S.

(** ** C04, deviation *)
Definition half_day : unit_t := {| udim := (0, 0, 1)%Z; uscale := 1 / 2 |}.
Definition dur_args (d : qty R) : kargs R :=
  {| ka_period := Some (plain 4); ka_a := None; ka_t0 := None; ka_tper := None;
     ka_incl := None; ka_b := Some 0; ka_duration := Some d; ka_ecc := None; ka_omega := None;
     ka_sin_omega := None; ka_cos_omega := None; ka_Omega := None; ka_m_planet := Some (plain 0);
     ka_m_star := None; ka_r_star := None; ka_rho_star := None; ka_ror := None;
     ka_m_planet_units := None; ka_rho_star_units := None |}.

Lemma fallback_ok : consts_ok fallback_consts.
Proof. constructor; cbn; lra. Qed.

Lemma dur_units_ignored : exists k x x' o o',
  consts_ok k /\ preconverted k x = Ok x' /\ kep_init k x = Ok o /\ kep_init k x' = Ok o' /\ o_a o <> o_a o'.
Proof.
  exists fallback_consts, (dur_args (tagged 2 half_day)), (dur_args (plain (2 * (1 / 2 / 1)))).
  eexists. eexists. split; [apply fallback_ok|]. split; [reflexivity|]. split; [reflexivity|]. split; [reflexivity|].
  cbn. simR.
  assert (E1 : PI * 2 / 4 = PI / 2) by field. assert (E2 : PI * (2 * (1 / 2 / 1)) / 4 = PI / 4) by field.
  rewrite E1, E2, sin_PI2, cos_PI2.
  assert (H := sin_PI4). assert (H2 := sqrt_lt_R0 2 ltac:(lra)). assert (H3 := sqrt_sqrt 2 ltac:(lra)).
  match goal with |- 1 * (sqrt ?a / 1) <> 1 * (sqrt ?b / _) => replace a with 1 by ring; replace b with 1 by ring end.
  rewrite sqrt_1. intros E. assert (Hs : sin (PI / 4) = 1).
  { apply Rmult_eq_reg_l with (/ sin (PI / 4)). rewrite Rinv_l. unfold Rdiv in E. lra.
    all: try apply Rinv_neq_0_compat; rewrite H; apply Rgt_not_eq; apply Rdiv_lt_0_compat; lra. }
  rewrite Hs in H. assert (sqrt 2 = 1). { apply Rmult_eq_reg_l with (1 / sqrt 2). unfold Rdiv in *. rewrite Rmult_1_l in *.
    rewrite Rinv_l by lra. lra. unfold Rdiv. rewrite Rmult_1_l. apply Rinv_neq_0_compat. lra. }
  rewrite H0 in H3. lra.
Qed.
