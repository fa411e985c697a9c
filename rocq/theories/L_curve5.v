(** * What a transit light curve determines: an example *)
From Coq Require Import Reals Lra Lia Psatz List Bool Arith ZArith.
From Coquelicot Require Import Coquelicot.
From Verif Require Import Num CoreOps Inst CoreFlux M_units M_kepler M_fin M_tensor M_limbdark Spec_orbit Spec_params Spec_array Spec_light Spec_depth Spec_curve
  L_real L_orbit L_transit L_light8 L_depth2 L_depth3 L_curve L_curve2 L_curve3 L_curve4 Ex_orbit Ex_system Ex_curve.
Import ListNotations.
Open Scope R_scope.

Lemma scaled_example : forall cp, exists o o1 o' o1',
  consts_ok ek /\ system ek 1 (ex_star_sys (1 * 1 * 1) 1 (1 / 2) 2) (fun _ => ex_star_args (1 * 1 * 1) 1 (1 / 2) 2) (fun _ => o1) /\ kep_init ek (ex_star_sys (1 * 1 * 1) 1 (1 / 2) 2) = Ok o /\
  elements 1 (vector 1 (fun _ => 1 / 10)) (fun _ => 1 / 10) /\ plain_mask None 1 (fun _ => ex_star_args (1 * 1 * 1) 1 (1 / 2) 2) (fun _ => o1) (fun _ => 1 / 10) /\ full_transit o1 (1 / 10) /\
  system ek 1 (ex_star_sys (2 * 2 * 2) 2 (- (1 / 2)) 12) (fun _ => ex_star_args (2 * 2 * 2) 2 (- (1 / 2)) 12) (fun _ => o1') /\ kep_init ek (ex_star_sys (2 * 2 * 2) 2 (- (1 / 2)) 12) = Ok o' /\
  elements 1 (vector 1 (fun _ => 2 / 10)) (fun _ => 2 / 10) /\ plain_mask None 1 (fun _ => ex_star_args (2 * 2 * 2) 2 (- (1 / 2)) 12) (fun _ => o1') (fun _ => 2 / 10) /\ full_transit o1' (2 / 10) /\
  shining 0 0 /\ disk_flux 0 0 <> 0 /\ (0 < 1)%nat /\ 0 < o_m_star o1 /\ 0 < o_m_star o1' /\ o_m_planet o1 / o_m_star o1 = o_m_planet o1' / o_m_star o1' /\
  o_r_star o1' = 2 * o_r_star o1 /\ o_a o1' = 2 * o_a o1 /\ o_t0 o1' = o_t0 o1 + 10 /\
  (forall t v, light_at 0 0 (kep_api ek (lift_cp cp) o) 1 (vector 1 (fun _ => 1 / 10)) None 0 t v <-> light_at 0 0 (kep_api ek (lift_cp cp) o') 1 (vector 1 (fun _ => 2 / 10)) None 0 t v) /\
  light_at 0 0 (kep_api ek (lift_cp cp) o) 1 (vector 1 (fun _ => 1 / 10)) None 0 2 (- (1 / 100)) /\ light_at 0 0 (kep_api ek (lift_cp cp) o) 1 (vector 1 (fun _ => 1 / 10)) None 0 (9 / 2) 0.
Proof.
  intro cp. destruct (ex_star_system 1 (1 / 2) 2 ltac:(lra) ltac:(rewrite Rabs_pos_eq; lra)) as (o & o1 & A1 & A2 & A3 & A4 & A5 & A6 & A7 & A8 & A9 & A10 & A11).
  destruct (ex_star_system 2 (- (1 / 2)) 12 ltac:(lra) ltac:(rewrite Rabs_Ropp, Rabs_pos_eq; lra)) as (o' & o1' & B1 & B2 & B3 & B4 & B5 & B6 & B7 & B8 & B9 & B10 & B11).
  assert (E1 := elements_vector 1 (fun _ => 1 / 10)). assert (E2 := elements_vector 1 (fun _ => 2 / 10)). assert (D := shining_flux _ _ uniform_shines).
  assert (L := light_value 0 0 ek 1 _ _ (fun _ => o1) o cp _ _ None 0%nat 2 D ek_ok A1 A2 E1 A11 ltac:(lia)). assert (L' := light_value 0 0 ek 1 _ _ (fun _ => o1) o cp _ _ None 0%nat (9 / 2) D ek_ok A1 A2 E1 A11 ltac:(lia)).
  exists o, o1, o', o1'. split; [exact ek_ok|]. repeat (split; [assumption|]). split; [exact uniform_shines|]. split; [exact D|]. split; [lia|]. split; [exact A8|]. split; [exact B8|]. split; [rewrite A9, B9; reflexivity|]. split; [lra|]. split; [rewrite A10, B10; ring|]. split; [lra|].
  assert (I1 := sy_init _ _ _ _ _ A1 0%nat ltac:(lia)). assert (P1 := sy_phys _ _ _ _ _ A1 0%nat ltac:(lia)). cbv beta in I1, P1. split; [|split].
  - apply (curve_enough 0 0 ek 1 (ex_star_sys (1 * 1 * 1) 1 (1 / 2) 2) (fun _ => ex_star_args (1 * 1 * 1) 1 (1 / 2) 2) (fun _ => o1) o cp _ (fun _ => 1 / 10) None 0 1 (ex_star_sys (2 * 2 * 2) 2 (- (1 / 2)) 12) (fun _ => ex_star_args (2 * 2 * 2) 2 (- (1 / 2)) 12) (fun _ => o1') o' cp _ (fun _ => 2 / 10) None 0); try assumption; try lia; try exact ek_ok; try (apply A3); try (apply B3).
    + split; [congruence|]. exists 1%Z. rewrite A6, B6, A5. lra.
    + rewrite A7, B7. field.
    + rewrite A4, B4. apply Rabs_Ropp.
    + rewrite A7, B7, A10, B10. field.
  - apply L. assert (Q := bottom_iff ek _ o1 (1 / 10) ek_ok I1 P1 (proj1 A3) 0 0 A3 ltac:(rewrite Rabs_R0, A5; lra)). cbv zeta in Q. replace (o_t0 o1 + 0 * o_period o1 + 0) with 2 in Q by (rewrite A6; ring). destruct Q as [[_ Q] _]. rewrite Q, A7; [field|]. rewrite Rabs_R0.
    apply (half_range o1 (1 / 10) P1 (proj1 A3)); rewrite A7, ?A4; lra.
  - apply L'. assert (Q := dims_iff ek _ o1 (1 / 10) ek_ok I1 P1 (proj1 A3) 0 0 0 (5 / 2) uniform_shines ltac:(rewrite Rabs_pos_eq, A5; lra)). cbv zeta in Q. replace (o_t0 o1 + 0 * o_period o1 + 5 / 2) with (9 / 2) in Q by (rewrite A6; field). destruct Q as [[Q _] Q'].
    assert (W := half_range o1 (1 / 10) P1 (proj1 A3) (o_r_star o1 + 1 / 10)). rewrite A4, A7, A5, Rabs_pos_eq in * by lra. specialize (W ltac:(lra) ltac:(lra)). apply Rle_antisym; [|exact Q']. apply Rnot_lt_le. intro h. specialize (Q h). lra.
Qed.
