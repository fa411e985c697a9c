(** * Light curves with rounding errors: examples *)
From Coq Require Import Reals Lra Lia List Bool Arith ZArith.
From Coquelicot Require Import Coquelicot.
From Verif Require Import Num CoreOps Inst CoreFlux M_units M_kepler M_fin M_tensor M_limbdark M_simple Spec_orbit Spec_params Spec_array Spec_light Spec_simple Spec_dist Spec_lip Spec_accuracy Spec_float Spec_float2 Spec_float3 Spec_float5
  L_real L_fl L_flux L_light1 L_dist3 L_float Ex_accuracy Ex_compose Ex_lip L_simple2 Ex_float Ex_float2 Ex_float4.
Import ListNotations.
Open Scope R_scope.

Lemma exact_solves : solves 0 fsolution.
Proof. split; [lra|]. intros g _ b r. exists (visible_flux g (Rabs b) (Rabs r)). split; [reflexivity|]. rewrite Rminus_eq_0, Rabs_R0. lra. Qed.

(** a coarse machine whose quotients of negative numbers are off by 1% *)
Definition coarse : rounder := fun op x y r => match op with ODiv => if Rlt_dec x 0 then r * (1 + 1 / 100) else r | _ => r end.
Lemma coarse_ok : accurate (1 / 100) coarse.
Proof.
  split; [lra|]. intros op x y r. assert (A := Rabs_pos r). unfold coarse. destruct op; try (rewrite Rminus_eq_0, Rabs_R0; lra).
  destruct (Rlt_dec x 0); [|rewrite Rminus_eq_0, Rabs_R0; lra]. replace (r * (1 + 1 / 100) - r) with (1 / 100 * r) by ring. rewrite Rabs_mult, (Rabs_pos_eq (1 / 100)) by lra. lra.
Qed.
Lemma full0 : visible_flux basis0 (Rabs 1) (Rabs 0) = PI.
Proof.
  rewrite Rabs_R0, Rabs_R1, visible_out_full by lra. transitivity (full_flux (combo 1 0 0)); [|rewrite full_combo; field].
  apply RInt_ext. intros s _. unfold combo, basis0. lra.
Qed.
Lemma full1 : visible_flux basis1 (Rabs 1) (Rabs 0) = 2 * PI / 3.
Proof.
  rewrite Rabs_R0, Rabs_R1, visible_out_full by lra. transitivity (full_flux (combo 0 1 0)); [|rewrite full_combo; field].
  apply RInt_ext. intros s _. unfold combo, basis1. lra.
Qed.
Lemma dim_error : ~ (forall u rd, accurate u rd -> forall eps F, solves eps F -> forall u1 u2, disk_flux u1 u2 <> 0 ->
  forall b r los i bi ri li, aget b i = Fin bi -> aget r i = Fin ri -> aget los i = Fin li ->
  exists v, aget (computed_flux rd F u1 u2 b r (Some los)) i = Fin v /\ Rabs (v - rel_flux u1 u2 bi ri li) <= flux_error u eps).
Proof.
  intro H. assert (HP := PI_RGT_0). assert (Hd : disk_flux (2999 / 1000) 0 <> 0) by (rewrite disk_value; replace (PI * (1 - 2999 / 1000 / 3 - 0 / 6)) with (PI / 3000) by field; lra).
  destruct (H _ _ coarse_ok _ _ exact_solves (2999 / 1000) 0 Hd (alit (Fin 1)) (alit (Fin 0)) (alit (Fin 1)) ix0 1 0 1 eq_refl eq_refl eq_refl) as (v & Ev & Dv).
  rewrite rel_flux_out in Dv; [|exact Hd|left; rewrite Rabs_R0, Rabs_R1; lra].
  unfold computed_flux, compute_light_curve, quad_light_curve, computed_law, ld_init in Ev. cbn [nsw nlt nlit nzl rounded_tens amap3 amap2 amap alit aget ld_c] in Ev. unfold get_cl in Ev.
  cbn [nlit nadd nsub nmul ndiv rounded_fl flt] in Ev. unfold fsub in Ev. cbn [rnd fadd fneg fmul fdiv value coarse] in Ev.
  rewrite (Reqb_ne 1.5 0) in Ev by lra. cbn [rnd value fadd fmul fdiv flt] in Ev. unfold coarse in Ev. cbn [flt] in Ev. destruct (Rlt_dec (2999 / 1000 + 2 * 0) 0) as [c|_]; [lra|]. 
  set (q := PI * (1 + - (2999 / 1000) + - (1.5 * 0) + (2999 / 1000 + 2 * 0) / 1.5)) in Ev. assert (Q : q = PI / 3000) by (unfold q; lra). clearbody q. subst q.
  rewrite (Reqb_ne (PI / 3000) 0) in Ev by lra. cbn [rnd value] in Ev.
  destruct (Rlt_dec (1 + - (2999 / 1000) + - (1.5 * 0)) 0) as [_|c]; [|lra]. destruct (Rlt_dec (2999 / 1000 + 2 * 0) 0) as [c|_]; [lra|]. destruct (Rlt_dec (-0.25 * 0) 0) as [c|_]; [lra|].
  unfold Rltb in Ev. destruct (Rlt_dec 0 1) as [_|c]; [|lra].
  unfold fquad, flux_op, fsolution in Ev. cbn [nlit nadd nsub nmul ndiv rounded_fl] in Ev. unfold fsub in Ev. cbn [rnd fadd fneg fmul value] in Ev. rewrite full0, full1 in Ev. injection Ev as Ev.
  assert (V : v = 1 + 3000 * (-1999 / 1000 / 100) - 1). { rewrite <- Ev. field. lra. }
  unfold flux_error in Dv. rewrite Rminus_0_r, Rabs_left in Dv; lra.
Qed.

(** double precision, a thousand days from t0: better than 1e-10 of the star's flux *)
Lemma lfloat_example : accurate half_ulp double /\ double OLit 1 0 1 = 1 /\ solves 0 fsolution /\ physical_law (intensity (3 / 10) (2 / 10)) /\
  simple_system 1 ex_one_simple (fun _ => ex_simple (1 / 2)) /\ graze_ok half_ulp (ex_simple (1 / 2)) /\ elements 1 (scalar (1 / 10)) (fun _ => 1 / 10) /\
  (0 <= 1 / 10 <= dflt 0 (sa_ror (ex_simple (1 / 2))) * dflt 1 (sa_r_star (ex_simple (1 / 2)))) /\
  reach_ok half_ulp (ex_simple (1 / 2)) (1 / 10) /\ is_vector 3 (vector 3 INR) /\ (forall m, (m < 3)%nat -> aget (vector 3 INR) (at_time m) = Fin (INR m)) /\ exposures 3 (scalar (1 / 4)) (fun _ => 1 / 4) /\
  (exists nodes weights, stencil 7 0 = Ok (nodes, weights)) /\
  flux_error half_ulp 0 + distance_error half_ulp (1 / 10) (place_error half_ulp (ex_simple (1 / 2)) 1000 0) <= / 10 ^ 10.
Proof.
  destruct sfloat_example as (A1 & A2 & A3 & A4 & A5 & _ & A6). destruct simple_exposed_example as (B1 & B2 & B3). destruct exposed_example as (os & o & _ & _ & _ & _ & _ & _ & C1 & C2 & C3 & _).
  split; [exact A1|]. split; [apply (proj1 double_one)|]. split; [exact exact_solves|]. split; [apply law_iff; lra|]. split; [exact B1|]. split; [repeat split; assumption || (apply A2)|].
  split. { split; [exists []; split; reflexivity|]. intros j Hj. reflexivity. }
  split; [exact B3|].
  split. { unfold reach_ok. cbn [ex_simple dflt sa_b sa_ror sa_r_star]. split; [rewrite Rabs_pos_eq; lra|]. rewrite half_ulp_is. replace (grazing (1 + 1 / 10) (1 / 2)) with (121 / 96) by (unfold grazing; field). replace (grazing (1 / 10 + 1) (1 / 2 * 1)) with (121 / 96) by (unfold grazing; field). lra. }
  split; [exact C1|]. split; [exact C2|]. split; [exact C3|]. split; [eexists _, _; reflexivity|].
  unfold flux_error, distance_error, place_error. assert (G : grazing (1 + 1 / 10) (1 / 2) = 121 / 96) by (unfold grazing; field). cbn [ex_simple dflt sa_b sa_ror sa_r_star sa_duration sa_period sa_t0] in *. rewrite G.
  set (te := time_error _ _ _) in *. assert (HU : half_ulp = / 9007199254740992) by exact half_ulp_is.
  assert (CS : 0 <= chord_speed (ex_simple (1 / 2)) <= 2). { unfold chord_speed. cbn [ex_simple dflt sa_b sa_ror sa_r_star sa_duration]. cbv zeta.
    assert (S1 : 0 <= sqrt ((1 + 1 / 10) * (1 + 1 / 10) - 1 / 2 * (1 / 2)) <= 1). { split; [apply sqrt_pos|]. apply Rle_trans with (sqrt 1); [apply sqrt_le_1_alt; lra|rewrite sqrt_1; lra]. } lra. }
  set (V := chord_speed _) in *. assert (T0 : 0 <= te) by (unfold te, time_error; assert (HH := half_ulp_is); cbn [ex_simple dflt sa_t0 sa_period]; rewrite !Rabs_pos_eq by lra; rewrite HU; lra). clearbody V te. rewrite (Rabs_pos_eq (1 / 2 * 1)) by lra. rewrite HU.
  assert (VV : V * (3 * te + / 9007199254740992 * (8 * (121 / 96) * 10 + 2 * 1) + 4 * 0) <= 2 * (3 / 10 ^ 12 + / 9007199254740992 * (8 * (121 / 96) * 10 + 2 * 1) + 4 * 0)) by (apply Rmult_le_compat; lra).
  lra.
Qed.
