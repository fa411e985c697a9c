(** * Radius ratio from the transit depth with rounding errors: an example *)
From Coq Require Import Reals Lra Lia Psatz List.
From Flocq Require Import Core.
From Verif Require Import Num CoreOps Inst CoreFlux M_units M_kepler M_tensor M_limbdark Spec_orbit Spec_array Spec_dist Spec_light Spec_float Spec_float2 Spec_float3 Spec_float5 Spec_float7 L_real L_fl L_dist3 L_transit6 L_reshape L_light1 L_light9 L_float34 Ex_float.
Import ListNotations.
Open Scope R_scope.

Lemma ulp_tiny : 0 < half_ulp <= / 10 ^ 15.
Proof.
  split; [apply half_ulp_small|]. unfold half_ulp. cbn -[Rinv Rmult IZR]. rewrite <- Rinv_mult. apply Rinv_le_contravar; lra.
Qed.
(** a transit of depth 1% at impact parameter 1/2 in double precision *)
Lemma ror_float_example : accurate half_ulp double /\ physical_law (intensity (3 / 10) (2 / 10)) /\ twf (vector 3 (fun _ => 1 / 2)) /\ inside [3%nat] (at_time 1) /\ Rabs (1 / 2) < 1 /\
  off_limb half_ulp (3 / 10) (2 / 10) (1 / 2) /\ limb_error half_ulp (3 / 10) (2 / 10) (1 / 2) <= / 10 ^ 12.
Proof.
  destruct ulp_tiny as [U0 U1]. destruct ror_example as (_ & E2 & _).
  assert (M : 8 / 10 <= sqrt (1 - 1 / 2 * (1 / 2)) <= 9 / 10). { split; [rewrite <- (sqrt_square (8 / 10)) by lra|rewrite <- (sqrt_square (9 / 10)) by lra]; apply sqrt_le_1_alt; lra. }
  assert (T : half_ulp <= / 1000000) by apply half_ulp_small.
  split; [apply double_ok|]. split; [apply law_iff; lra|]. split; [apply vector_is|]. split; [exact E2|]. split; [rewrite Rabs_pos_eq; lra|].
  unfold off_limb, limb_error, foreshortening. set (mu := sqrt (1 - 1 / 2 * (1 / 2))) in *. clearbody mu. assert (I : 9 / 10 <= intensity (3 / 10) (2 / 10) mu) by (unfold intensity; nra).
  set (f := intensity (3 / 10) (2 / 10) mu) in *. clearbody f. assert (P : 1 / 2 <= mu * f) by nra. split; [split; [lra|split; nra]|].
  apply (Rmult_le_reg_r (mu * f)); [lra|]. replace (100 * half_ulp / (mu * f) * (mu * f)) with (100 * half_ulp) by (field; nra).
  apply Rle_trans with (/ 10 ^ 12 * (1 / 2)); [lra|]. apply Rmult_le_compat_l; [|exact P]. lra.
Qed.

(** a coarse machine whose products are 1% too large *)
Definition swollen : rounder := fun op _ _ r => match op with OMul => r * (1 + 1 / 100) | _ => r end.
Lemma swollen_ok : accurate (1 / 100) swollen.
Proof.
  split; [lra|]. intros op x y r. assert (A := Rabs_pos r). unfold swollen. destruct op; try (rewrite Rminus_eq_0, Rabs_R0; lra).
  replace (r * (1 + 1 / 100) - r) with (1 / 100 * r) by ring. rewrite Rabs_mult, (Rabs_pos_eq (1 / 100)) by lra. lra.
Qed.
Lemma nan_div (a : fl) : fdiv a NaN = NaN.
Proof. destruct a; reflexivity. Qed.
Lemma swollen_nan : fst (@approx_ror fl bool (rounded_fl swollen) (Fin 0) (Fin 0) (Fin (1 / 100)) (Fin (999 / 1000))) = NaN.
Proof.
  unfold approx_ror. cbv zeta. cbn [fst].
  assert (E : @nsqrt fl bool (rounded_fl swollen) (@nsub fl bool (rounded_fl swollen) (@nlit fl bool (rounded_fl swollen) 1) (@npw fl bool (rounded_fl swollen) (Fin (999 / 1000)) 2)) = NaN).
  { cbn [nsqrt nsub nlit npw nmul rounded_fl fmul rnd value]. unfold fsub. cbn [fneg fadd rnd value]. unfold swollen at 1 2 3. unfold fsqrt, Rltb.
    destruct (Rlt_dec _ 0) as [_|c]; [reflexivity|]. unfold swollen in c. lra. }
  rewrite E. set (f0 := nsub (nsub _ _) (ndiv (nmul _ (Fin 0)) (nlit 12))). clearbody f0. 
  cbn [nsub nlit npw nmul ndiv nsqrt rounded_fl]. cbn [fsub fneg fadd fmul rnd value]. rewrite nan_div. reflexivity.
Qed.
Lemma limb_nan : ~ (forall u rd, accurate u rd -> forall u1 u2, physical_law (intensity u1 u2) -> forall (delta b : tens) s i d bb,
  twf delta -> twf b -> (ash delta = Ok s \/ ash delta = Ok []) -> ash b = Ok s -> inside s i -> aget delta i = Fin d -> aget b i = Fin bb ->
  0 < d -> Rabs bb < 1 -> 0 < intensity u1 u2 (foreshortening bb) ->
  exists v, aget (fst (computed_ror rd u1 u2 delta b false)) i = Fin v).
Proof.
  intro H. destruct (H _ _ swollen_ok 0 0 ltac:(apply law_iff; lra) (alit (Fin (1 / 100))) (alit (Fin (999 / 1000))) [] ix0 (1 / 100) (999 / 1000)) as [v Hv].
  - intros s Hs i i' _. reflexivity.
  - intros s Hs i i' _. reflexivity.
  - right. reflexivity.
  - reflexivity.
  - intros k Hk. cbn in Hk. lia.
  - reflexivity.
  - reflexivity.
  - lra.
  - rewrite Rabs_pos_eq; lra.
  - unfold intensity. lra.
  - set (A := @approx_ror tens btens (rounded_tens swollen) (alit (Fin 0)) (alit (Fin 0)) (alit (Fin (1 / 100))) (alit (Fin (999 / 1000)))).
    assert (EG : computed_ror swollen 0 0 (alit (Fin (1 / 100))) (alit (Fin (999 / 1000))) false = (areshape (ash (alit (Fin (999 / 1000)))) (fst A), None)) by exact (let_pair A _ false).
    rewrite EG in Hv. cbn [fst] in Hv.
    assert (SA : ash (fst A) = Ok []). { unfold A, approx_ror. cbn [fst snd nlit rounded_tens nsub nmul ndiv npw nsqrt amap amap2 alit ash]. repeat rewrite r_l. reflexivity. }
    assert (VA : forall j, aget (fst A) j = fst (@approx_ror fl bool (rounded_fl swollen) (Fin 0) (Fin 0) (Fin (1 / 100)) (Fin (999 / 1000)))).
    { intro j. unfold A, approx_ror. cbn [fst snd nlit rounded_tens nsub nmul ndiv npw nsqrt amap amap2 alit aget]. reflexivity. }
    clearbody A. change (aget (areshape (Ok []) (fst A)) ix0 = Fin v) in Hv. assert (K := reshape_at (fst A) [] [] ix0 SA). apply (eq_trans (eq_sym K)) in Hv. unfold flat in Hv. rewrite SA, VA, swollen_nan in Hv. discriminate Hv.
Qed.
