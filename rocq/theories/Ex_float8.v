(** * Semi-major axis from the duration with rounding errors: an example *)
From Coq Require Import Reals Lra Lia Psatz List.
From Flocq Require Import Core.
From Verif Require Import Num CoreOps Inst M_units M_kepler M_tensor Spec_array Spec_float Spec_float2 Spec_float3 Spec_float9 L_real L_fl L_light1 L_float34 L_float36 Ex_float Ex_float7.
Import ListNotations.
Open Scope R_scope.

(** a transit of 0.1 days every 3 days at impact parameter 1/2 in double precision *)
Lemma aor_float_example : accurate half_ulp double /\ 0 < 1 / 10 < 3 / 2 /\ 0 <= 1 / 10 /\ Rabs (1 / 2) < 1 + 1 / 10 /\
  half_ulp * grazing (1 + 1 / 10) (1 / 2) <= 1 / 1000 /\ 41 * half_ulp * grazing (1 + 1 / 10) (1 / 2) <= / 10 ^ 13.
Proof.
  destruct ulp_tiny as [U0 U1]. assert (E : 0 < grazing (1 + 1 / 10) (1 / 2) <= 2) by (unfold grazing; lra). set (g := grazing (1 + 1 / 10) (1 / 2)) in *. clearbody g.
  split; [apply double_ok|]. split; [lra|]. split; [lra|]. split; [rewrite Rabs_pos_eq; lra|]. split; [nra|]. nra.
Qed.
Lemma swollen_aor : fst (@get_aor fl bool (rounded_fl swollen) (Fin (1 / 1000)) (Fin 1) (Fin (999 / 1000)) None) = NaN.
Proof.
  unfold get_aor. cbv zeta. cbn [fst].
  match goal with |- context [nsqrt ?x] => assert (E : @nsqrt fl bool (rounded_fl swollen) x = NaN) end.
  { change (@nlit fl bool (rounded_fl swollen) 1) with (Fin 1). change (@nlit fl bool (rounded_fl swollen) 0) with (Fin 0). change (@nlit fl bool (rounded_fl swollen) PI) with (Fin PI). rewrite (f_mul swollen PI). rewrite (f_div swollen _ 1 ltac:(lra)).
    match goal with |- context [ncos (Fin ?x)] => change (@ncos fl bool (rounded_fl swollen) (Fin x)) with (Fin (swollen OCos x 0 (cos x))) end.
    change (@nadd fl bool (rounded_fl swollen) (Fin 1) (Fin 0)) with (Fin (swollen OAdd 1 0 (1 + 0))). rewrite !(f_sq swollen), !(f_mul swollen), !(f_sub swollen). cbn [nsqrt rounded_fl]. unfold fsqrt, Rltb.
    match goal with |- context [Rlt_dec ?a 0] => destruct (Rlt_dec a 0) as [_|c]; [reflexivity|exfalso; apply c] end. unfold swollen.
    match goal with |- context [cos ?x] => set (y := x); assert (Y : 0 <= y <= 1 / 100) end.
    { assert (P := PI_4). assert (P0 := PI_RGT_0). unfold y. lra. }
    assert (C := COS_bound y). assert (S := SIN_bound y). assert (S2 := sin2_cos2 y). unfold Rsqr in S2.
    assert (S3 : 0 <= sin y <= 1 / 100). { split; [apply sin_ge_0; assert (P := PI2_3_2); unfold PI2 in P; lra|]. destruct (Req_dec y 0) as [h|h]; [rewrite h, sin_0; lra|]. assert (sin y < y) by (apply sin_lt_x; lra). lra. }
    assert (9999 / 10000 <= cos y * cos y) by nra. lra. }
  rewrite E. reflexivity.
Qed.
Lemma aor_nan : ~ (forall u rd, accurate u rd -> forall (duration period b : tens) i d p bb,
  aget duration i = Fin d -> aget period i = Fin p -> aget b i = Fin bb -> 0 < d < p / 2 -> 0 <= bb < 1 ->
  exists v, aget (fst (computed_aor rd duration period b None)) i = Fin v).
Proof.
  intro H. destruct (H _ _ swollen_ok (alit (Fin (1 / 1000))) (alit (Fin 1)) (alit (Fin (999 / 1000))) ix0 (1 / 1000) 1 (999 / 1000)) as [v Hv]; try reflexivity; try lra.
  assert (E : aget (fst (computed_aor swollen (alit (Fin (1 / 1000))) (alit (Fin 1)) (alit (Fin (999 / 1000))) None)) ix0 = fst (@get_aor fl bool (rounded_fl swollen) (Fin (1 / 1000)) (Fin 1) (Fin (999 / 1000)) None)).
  { unfold computed_aor, get_aor. cbn [fst snd nlit rounded_tens nadd nsub nmul ndiv npw nsqrt nsin ncos amap amap2 alit aget]. reflexivity. }
  rewrite E, swollen_aor in Hv. discriminate Hv.
Qed.
