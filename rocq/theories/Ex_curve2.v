(** * SimpleTransitOrbits with the same light curve *)
From Coq Require Import Reals Lra Lia Psatz List Bool Arith ZArith.
From Coquelicot Require Import Coquelicot.
From Verif Require Import Num CoreOps Inst CoreFlux M_units M_kepler M_fin M_tensor M_limbdark M_simple Spec_orbit Spec_params Spec_array Spec_simple Spec_light Spec_depth Spec_curve Spec_curve2
  L_real L_orbit L_light1 L_light8 L_depth2 L_simple2 L_curve3 L_curve2 L_pass2 L_pass3 L_pass4 Ex_orbit Ex_system Ex_curve.
Import ListNotations.
Open Scope R_scope.

(** a transit of a day every ten days, a star of radius c *)
Definition ex_line (c b t0 : R) : sargs R := {| sa_period := 10; sa_duration := 1; sa_t0 := Some t0; sa_b := Some b; sa_r_star := Some c; sa_ror := Some (1 / 10) |}.
Definition ex_line_sys (c b t0 : R) : sargs tens := {| sa_period := scalar 10; sa_duration := scalar 1; sa_t0 := Some (scalar t0); sa_b := Some (scalar b); sa_r_star := Some (scalar c); sa_ror := Some (scalar (1 / 10)) |}.
Lemma ex_line_system c b t0 : 0 < c -> Rabs b <= 1 / 2 -> simple_system 1 (ex_line_sys c b t0) (fun _ => ex_line c b t0) /\ simple_ok (ex_line c b t0) /\
  (forall r, 0 < r -> crossing (ex_line c b t0) r /\ simple_search None 1 (fun _ => ex_line c b t0) (fun _ => r)).
Proof.
  intros Hc Hb. assert (Z := Rabs_pos b). assert (K : simple_ok (ex_line c b t0)) by (constructor; cbn; lra).
  split. { constructor; cbn; try exact I; try apply scalar_pp; [split; [apply scalar_pp|right; split; reflexivity]|]. intros [|j] Hj; [|lia]; reflexivity. }
  split; [exact K|]. intros r Hr. split; [constructor; cbn; try lra; try exact K; nra|]. right. intros j _. cbn. split; [lra|]. split; [lra|]. nra.
Qed.
Lemma ex_lit : lit (1 / 2) (1 / 4).
Proof. split; [apply darkening_iff; lra|unfold intensity; lra]. Qed.
Lemma line_example :
  simple_system 1 (ex_line_sys 1 (1 / 2) 2) (fun _ => ex_line 1 (1 / 2) 2) /\ simple_ok (ex_line 1 (1 / 2) 2) /\ elements 1 (vector 1 (fun _ => 1 / 10)) (fun _ => 1 / 10) /\
  simple_search None 1 (fun _ => ex_line 1 (1 / 2) 2) (fun _ => 1 / 10) /\ crossing (ex_line 1 (1 / 2) 2) (1 / 10) /\ matched (ex_line 1 (1 / 2) 2) (1 / 10) /\
  simple_system 1 (ex_line_sys 2 (- (1 / 2)) 12) (fun _ => ex_line 2 (- (1 / 2)) 12) /\ simple_ok (ex_line 2 (- (1 / 2)) 12) /\ elements 1 (vector 1 (fun _ => 2 / 10)) (fun _ => 2 / 10) /\
  simple_search None 1 (fun _ => ex_line 2 (- (1 / 2)) 12) (fun _ => 2 / 10) /\ crossing (ex_line 2 (- (1 / 2)) 12) (2 / 10) /\ matched (ex_line 2 (- (1 / 2)) 12) (2 / 10) /\
  lit (1 / 2) (1 / 4) /\ shining (1 / 2) (1 / 4) /\ disk_flux (1 / 2) (1 / 4) <> 0 /\ (0 < 1)%nat /\
  ratio_shown (1 / 2) (1 / 4) (1 / 2) 1 (1 / 10) (- (1 / 2)) 2 (2 / 10) /\ ratio_shown 0 0 (1 / 2) 1 (1 / 10) (- (1 / 2)) 2 (3 / 10) /\ lit 0 0 /\
  (forall t v, light_at (1 / 2) (1 / 4) (simple_api (simple_init (ex_line_sys 1 (1 / 2) 2))) 1 (vector 1 (fun _ => 1 / 10)) None 0 t v <-> light_at (1 / 2) (1 / 4) (simple_api (simple_init (ex_line_sys 2 (- (1 / 2)) 12))) 1 (vector 1 (fun _ => 2 / 10)) None 0 t v) /\
  (exists v, light_at (1 / 2) (1 / 4) (simple_api (simple_init (ex_line_sys 1 (1 / 2) 2))) 1 (vector 1 (fun _ => 1 / 10)) None 0 (12 + 4 / 10) v /\ v < 0) /\
  light_at (1 / 2) (1 / 4) (simple_api (simple_init (ex_line_sys 1 (1 / 2) 2))) 1 (vector 1 (fun _ => 1 / 10)) None 0 (12 + 6 / 10) 0.
Proof.
  assert (B : Rabs (1 / 2) <= 1 / 2) by (rewrite Rabs_pos_eq; lra). assert (B' : Rabs (- (1 / 2)) <= 1 / 2) by (rewrite Rabs_Ropp; exact B).
  destruct (ex_line_system 1 (1 / 2) 2 ltac:(lra) B) as (A1 & A2 & A3). destruct (ex_line_system 2 (- (1 / 2)) 12 ltac:(lra) B') as (B1 & B2 & B3). destruct (A3 (1 / 10) ltac:(lra)) as [A4 A5]. destruct (B3 (2 / 10) ltac:(lra)) as [B4 B5].
  assert (E1 := elements_vector 1 (fun _ => 1 / 10)). assert (E2 := elements_vector 1 (fun _ => 2 / 10)). assert (S := lit_shines _ _ ex_lit). assert (D := shining_flux _ _ S). assert (M : matched (ex_line 1 (1 / 2) 2) (1 / 10)) by (unfold matched; cbn; lra).
  split; [exact A1|]. split; [exact A2|]. split; [exact E1|]. split; [exact A5|]. split; [exact A4|]. split; [exact M|]. split; [exact B1|]. split; [exact B2|]. split; [exact E2|]. split; [exact B5|]. split; [exact B4|]. split; [unfold matched; cbn; lra|].
  split; [exact ex_lit|]. split; [exact S|]. split; [exact D|]. split; [lia|]. split; [left; lra|]. split; [right; rewrite Rabs_Ropp, Rabs_pos_eq by lra; repeat split; left; lra|]. split; [split; [apply darkening_iff; lra|unfold intensity; lra]|].
  assert (V := fun t => simple_light_value (1 / 2) (1 / 4) 1 _ _ _ _ None 0%nat t D A1 (fun _ _ => A2) E1 A5 ltac:(lia)).
  assert (Q := fun t => simple_dimmed (1 / 2) (1 / 4) 1 _ _ _ _ None 0%nat t _ S A1 (fun _ _ => A2) E1 A5 ltac:(lia) A4 (proj2 (V t _) eq_refl)). cbv beta in Q. rewrite (matched_part _ _ A4 M) in Q. unfold smid in Q. cbn [sa_duration sa_t0 sa_period dflt ex_line] in Q.
  split; [|split].
  - apply (simple_enough (1 / 2) (1 / 4) 1 _ _ _ _ None 0 1 _ _ _ _ None 0 D A1 (fun _ _ => A2) E1 A5 ltac:(lia) B1 (fun _ _ => B2) E2 B5 ltac:(lia)); cbn; try lra.
    + split; [reflexivity|]. exists 1%Z. cbn. lra.
    + apply Rabs_Ropp.
  - eexists. split; [apply V; reflexivity|]. apply Q. exists 1%Z. apply Rabs_def1; lra.
  - apply V. destruct (Q (12 + 6 / 10)) as [q1 q2]. apply Rle_antisym; [|exact q1]. apply Rnot_lt_le. intro h. apply q2 in h. destruct h as [z h]. apply Rabs_lt_between in h. assert (a1 : IZR z * 10 > 10) by lra. assert (a2 : IZR z * 10 < 20) by lra.
    assert (b1 : (1 < z)%Z) by (apply lt_IZR; lra). assert (b2 : (z < 2)%Z) by (apply lt_IZR; lra). lia.
Qed.
(** the planet is half as large as SimpleTransitOrbit was told *)
Lemma part_example : crossing (ex_line 1 0 2) (1 / 20) /\ dimmed_part (ex_line 1 0 2) (1 / 20) = 21 / 22 /\ dimmed_part (ex_line 1 0 2) (1 / 5) = 1.
Proof.
  split; [apply (ex_line_system 1 0 2); rewrite ?Rabs_R0; lra|]. unfold dimmed_part. cbn. split.
  - replace (((1 + 1 / 20 / 1) * (1 + 1 / 20 / 1) - 0 * 0) / ((1 + 1 / 10) * (1 + 1 / 10) - 0 * 0)) with (21 / 22 * (21 / 22)) by field. rewrite sqrt_square by lra. apply Rmin_right. lra.
  - replace (((1 + 1 / 5 / 1) * (1 + 1 / 5 / 1) - 0 * 0) / ((1 + 1 / 10) * (1 + 1 / 10) - 0 * 0)) with (12 / 11 * (12 / 11)) by field. rewrite sqrt_square by lra. apply Rmin_left. lra.
Qed.
Lemma line_star_example : exists o o1, consts_ok ek /\ system ek 1 (ex_star_sys (1 * 1 * 1) 1 (1 / 2) 2) (fun _ => ex_star_args (1 * 1 * 1) 1 (1 / 2) 2) (fun _ => o1) /\ kep_init ek (ex_star_sys (1 * 1 * 1) 1 (1 / 2) 2) = Ok o /\
  elements 1 (vector 1 (fun _ => 1 / 10)) (fun _ => 1 / 10) /\ plain_mask None 1 (fun _ => ex_star_args (1 * 1 * 1) 1 (1 / 2) 2) (fun _ => o1) (fun _ => 1 / 10) /\ transiting o1 (1 / 10) /\
  simple_system 1 (ex_line_sys 1 (1 / 2) 2) (fun _ => ex_line 1 (1 / 2) 2) /\ simple_ok (ex_line 1 (1 / 2) 2) /\ simple_search None 1 (fun _ => ex_line 1 (1 / 2) 2) (fun _ => 1 / 10) /\ crossing (ex_line 1 (1 / 2) 2) (1 / 10) /\ matched (ex_line 1 (1 / 2) 2) (1 / 10) /\
  lit (1 / 2) (1 / 4) /\ (0 < 1)%nat /\ ratio_shown (1 / 2) (1 / 4) (o_b o1) (o_r_star o1) (1 / 10) (1 / 2) 1 (1 / 10).
Proof.
  destruct (ex_star_system 1 (1 / 2) 2 ltac:(lra) ltac:(rewrite Rabs_pos_eq; lra)) as (o & o1 & A1 & A2 & A3 & A4 & A5 & A6 & A7 & A8 & A9 & A10 & A11).
  destruct line_example as (B1 & B2 & B3 & B4 & B5 & B6 & _). exists o, o1. split; [exact ek_ok|]. split; [exact A1|]. split; [exact A2|]. split; [exact B3|]. split; [exact A11|]. split; [exact (proj1 A3)|]. repeat (split; [assumption|]). split; [exact ex_lit|]. split; [lia|]. left. rewrite A7. reflexivity.
Qed.
(** a known ratio: two grazing transits of a limb-darkened star *)
Lemma grazing_example : exists o o1, consts_ok ek /\ system ek 1 (ex_star_sys (1 * 1 * 1) 1 1 2) (fun _ => ex_star_args (1 * 1 * 1) 1 1 2) (fun _ => o1) /\ kep_init ek (ex_star_sys (1 * 1 * 1) 1 1 2) = Ok o /\
  elements 1 (vector 1 (fun _ => 1 / 10)) (fun _ => 1 / 10) /\ plain_mask None 1 (fun _ => ex_star_args (1 * 1 * 1) 1 1 2) (fun _ => o1) (fun _ => 1 / 10) /\ transiting o1 (1 / 10) /\ ~ full_transit o1 (1 / 10) /\
  lit (1 / 2) (1 / 4) /\ ratio_shown (1 / 2) (1 / 4) (o_b o1) (o_r_star o1) (1 / 10) (o_b o1) (o_r_star o1) (1 / 10).
Proof.
  destruct (ex_star 1 1 2 ltac:(lra) ltac:(rewrite Rabs_R1; lra)) as (o1 & A1 & A2 & A3 & A4 & A5 & A6 & A7 & A8 & A9 & A10 & A11). assert (A := ex_a_big).
  assert (Sy : system ek 1 (ex_star_sys (1 * 1 * 1) 1 1 2) (fun _ => ex_star_args (1 * 1 * 1) 1 1 2) (fun _ => o1)).
  { constructor. - lia. - constructor; cbn; try exact I; first [apply scalar_pp|right; split; reflexivity]. - intros j Hj. reflexivity. - intros j Hj. exact A1. - intros j Hj. exact A2. - intros j Hj. left. reflexivity. }
  eexists. exists o1. split; [exact ek_ok|]. split; [exact Sy|]. split; [reflexivity|]. split; [apply elements_vector|].
  assert (Z : o_r_star o1 + 1 / 10 < o_a o1) by (rewrite A9, A10; lra). split; [right; intros j Hj; split; [lra|]; split; [reflexivity|]; split; [exact Z|lra]|].
  split; [constructor; try assumption; [lra|rewrite A6, A9, Rabs_R1; lra]|]. split; [intros [_ h]; rewrite A6, A9, Rabs_R1 in h; lra|]. split; [exact ex_lit|]. left. reflexivity.
Qed.
