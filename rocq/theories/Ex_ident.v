(** * Orbits that observations can and cannot tell apart *)
From Coq Require Import Reals Lra Lia Bool List ZArith Psatz.
From Coquelicot Require Import Coquelicot.
From Verif Require Import Num CoreOps Inst M_units M_kepler Spec_orbit Spec_params Spec_sym Spec_ident L_real L_kepop L_orbit L_motion L_pmotion L_rvmean L_front L_clock L_pmotion5 L_ident L_ident2 L_ident3 Ex_orbit Ex_front.
Open Scope R_scope.

(** an eccentric, inclined orbit given by its time of periastron *)
Definition ident_args : kargs R := set_times ex_ecc_args None (Some 1).
Lemma ident_orbit w : exists o, kep_init ek (set_Omega ident_args w) = Ok o /\ physical o /\ o_period o = 10 /\ ecc_of o = 3 / 10 /\ cosw_of o = cos 1 /\ sinw_of o = sin 1 /\
  o_t0 o = 1 + @kep_M0 R bool NumR {| e_ecc := 3 / 10; e_omega := 1; e_cosw := cos 1; e_sinw := sin 1 |} / (2 * PI / 10) /\ o_m_planet o = 1 / 2 /\ o_incl o = 3 / 2 /\ o_m_star o = 1 /\
  o_a o = Rpowr (G_grav ek * (1 + 1 / 2) * (10 * 10) / (4 * (PI * PI))) (1 / 3).
Proof.
  eexists. split; [reflexivity|]. split; [|cbn; repeat split; try lra].
  constructor; cbn; try lra.
  - apply Rpowr_pos. assert (H := PI_RGT_0). apply Rdiv_lt_0_compat; nra.
  - apply COS_bound.
  - intros d Hd. inversion Hd. cbn. lra.
  - intros d Hd. inversion Hd. cbn. generalize (sin2_cos2' 1). lra.
Qed.
(** two orbits that differ in their node only: the radial velocities agree *)
Lemma velocity_example : exists o o' c, consts_ok ek /\ kep_init ek (set_Omega ident_args None) = Ok o /\ kep_init ek (set_Omega ident_args (Some 2)) = Ok o' /\ physical o /\ physical o' /\ same_t0 o o' /\
  uto (u_Rsun_per_day ek) (u_mps ek) = Ok c /\ 0 < c /\ 0 < o_m_planet o /\ 0 < o_m_planet o' /\ 0 < sin (o_incl o) /\ 0 < sin (o_incl o') /\ amplitude o = amplitude o' /\ same_timing o o'.
Proof.
  destruct (ident_orbit None) as (o & A & P & A1 & A2 & A3 & A4 & A5 & A6 & A7 & A8 & A9). destruct (ident_orbit (Some 2)) as (o' & B & Q & B1 & B2 & B3 & B4 & B5 & B6 & B7 & B8 & B9).
  exists o, o'. eexists. split; [exact ek_ok|]. split; [exact A|]. split; [exact B|]. split; [exact P|]. split; [exact Q|].
  split; [unfold same_t0; rewrite A4, B4; tauto|]. split; [reflexivity|]. split; [cbn; lra|]. rewrite A6, B6, A7, B7. assert (S := sin_32).
  split; [lra|]. split; [lra|]. split; [exact S|]. split; [exact S|].
  assert (F := kep_init_facts ek ek_ok _ o A P). assert (G := kep_init_facts ek ek_ok _ o' B Q).
  split.
  - unfold amplitude. rewrite (of_mtot _ _ _ F), (of_mtot _ _ _ G), A1, B1, A2, B2, A6, B6, A7, B7, A8, B8, A9, B9. reflexivity.
  - unfold same_timing. rewrite A1, B1, A2, B2, A3, B3, A4, B4, A5, B5. repeat (split; [reflexivity|]). exists 0%Z. ring.
Qed.
(** an orbit and its twin: on the sky they cannot be told apart, although one planet is in front of the star when the other is behind it *)
Lemma twin_example : exists o o', consts_ok ek /\ kep_init ek ident_args = Ok o /\ kep_init ek (twin ident_args) = Ok o' /\ physical o /\ physical o' /\
  ka_ecc ident_args <> None /\ ka_tper ident_args <> None /\ ka_b ident_args = None /\ ka_duration ident_args = None /\
  (forall t, vx (pos ek o Relative t None false) = vx (pos ek o' Relative t None false) /\ vy (pos ek o Relative t None false) = vy (pos ek o' Relative t None false)) /\
  vz (pos ek o' Relative (o_t0 o) None false) < 0 < vz (pos ek o Relative (o_t0 o) None false).
Proof.
  destruct (ident_orbit (Some (7 / 10))) as (o & A & P & A1 & A2 & A3 & A4 & A5 & A6 & A7 & A8 & A9). change (set_Omega ident_args (Some (7 / 10))) with ident_args in A.
  destruct (twin_motion ek ident_args o ek_ok A P) as (o' & B & Q & M); try discriminate; try reflexivity.
  exists o, o'. split; [exact ek_ok|]. split; [exact A|]. split; [exact B|]. split; [exact P|]. split; [exact Q|]. split; [discriminate|]. split; [discriminate|]. split; [reflexivity|]. split; [reflexivity|].
  split; [intro t; rewrite (proj1 (M t)); split; reflexivity|]. rewrite (proj1 (M (o_t0 o))). unfold flip_z, vz at 1. cbn [snd].
  assert (S1 := sin_one). assert (S2 := sin_32).
  destruct (L_params4.mid_transit ek ident_args o ek_ok A P) as (_ & Z0 & R0); [rewrite A4; lra|]. cbv zeta in Z0, R0. unfold pos. rewrite Z0.
  assert (F := kep_init_facts ek ek_ok _ o A P). rewrite (of_sini _ _ _ F), A7. set (r := o_a o * _ / _) in *. clearbody r. assert (0 < r * sin (3 / 2)) by (apply Rmult_lt_0_compat; assumption). lra.
Qed.
(** the same orbit, its time of periastron given one period later: same positions on the sky, and at some time the same non-zero velocity *)
Lemma sense_example : exists o o' t1, consts_ok ek /\ kep_init ek ident_args = Ok o /\ kep_init ek (later ident_args 10) = Ok o' /\ physical o /\ physical o' /\ o_t0 o' = o_t0 o + 10 /\
  (forall t, vx (pos ek o Relative t None false) = vx (pos ek o' Relative t None false) /\ vy (pos ek o Relative t None false) = vy (pos ek o' Relative t None false)) /\
  vz (vel o' Relative t1) * vz (vel o Relative t1) > 0.
Proof.
  destruct (ident_orbit (Some (7 / 10))) as (o & A & P & A1 & A2 & A3 & A4 & A5 & A6 & A7 & A8 & A9). change (set_Omega ident_args (Some (7 / 10))) with ident_args in A.
  destruct (proj1 (later_errors ek ident_args 10) o A) as [o' B]. destruct (later_motion ek ident_args o o' 10 A B) as (T0 & TP & M).
  assert (Q : physical o'). { assert (B' := B). rewrite clock_init, A in B'. cbn [rmap] in B'. apply L_params3.Ok_inj in B'. subst o'. destruct P; split; assumption. }
  assert (S1 := sin_one). assert (S2 := sin_32). assert (F := kep_init_facts ek ek_ok _ o A P).
  destruct (front_once ek ident_args o ek_ok A P) as (ta & tb & _ & _ & I & J); [rewrite (of_sini _ _ _ F), A7; exact S2|].
  destruct (I ltac:(rewrite A4; lra)) as [I1 I2]. assert (Z1 := proj2 (proj2 (J ta 0%Z)) ltac:(left; ring)). assert (Z2 := proj1 (J (o_t0 o) 0%Z) ltac:(lra)).
  assert (D : forall t, is_derive (fun s => vz (pos ek o Relative s None false)) t (vz (vel o Relative t))).
  { intro t. unfold vel. rewrite (rel_vel ek ek_ok ident_args o A P). apply (is_derive_ext (fun s => vz (lin o (- o_a o) s))); [|apply (lin_vderive o P (- o_a o) t)].
    intro s. unfold pos. rewrite (rel_pos ek ek_ok ident_args o A P). cbn [plxf]. rewrite Rmult_1_r. reflexivity. }
  destruct (MVT_gen (fun s => vz (pos ek o Relative s None false)) ta (o_t0 o) (fun t => vz (vel o Relative t))) as (c & _ & E).
  { intros; apply D. } { intros; apply continuity_pt_filterlim. apply (ex_derive_continuous (fun s => vz (pos ek o Relative s None false))). eexists. apply D. }
  assert (V : vz (vel o Relative c) <> 0) by (intro V; rewrite V in E; lra).
  exists o, o', c. split; [exact ek_ok|]. split; [exact A|]. split; [exact B|]. split; [exact P|]. split; [exact Q|]. split; [exact T0|].
  assert (W : forall t, pos ek o' Relative t None false = pos ek o Relative t None false /\ vel o' Relative t = vel o Relative t).
  { intro t. destruct (periodic_motion ek ident_args o t (-1)%Z None false None None ek_ok A P) as [H _]. destruct (H Relative) as (H1 & H2 & _). rewrite A1 in H1, H2. replace (t + IZR (-1) * 10) with (t - 10) in * by ring.
    destruct (M (t - 10)) as (N1 & N2 & _). replace (t - 10 + 10) with t in * by ring. rewrite N1, N2. split; assumption. }
  split; [intro t; rewrite (proj1 (W t)); split; reflexivity|]. rewrite (proj2 (W c)). nra.
Qed.
