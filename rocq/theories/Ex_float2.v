(** * Examples for C113 *)
From Coq Require Import Reals Lra Lia Psatz Bool List ZArith.
From Flocq Require Import Core Relative.
From Verif Require Import Num CoreOps Inst M_units M_kepler M_fin M_simple Spec_orbit Spec_params Spec_simple Spec_float Spec_float2 L_real L_simple2 L_float9 Ex_float.
Open Scope R_scope.

(** a planet as large as its star touching the star's disk at one point *)
Definition ex_touch : sargs R := {| sa_period := 10; sa_duration := 1; sa_t0 := Some 2; sa_b := Some 2; sa_r_star := None; sa_ror := Some 1 |}.
Lemma near_pow e : nearest (bpow radix2 e) = bpow radix2 e.
Proof. apply round_generic; [apply valid_rnd_N|]. apply generic_format_bpow. cbn. unfold FLX_exp. lia. Qed.
Lemma half_ulp_is : half_ulp = / 9007199254740992.
Proof. unfold half_ulp. cbn -[Rinv Rmult IZR]. rewrite <- Rinv_mult. replace (2 * 4503599627370496) with 9007199254740992 by lra. reflexivity. Qed.
Lemma sfloat_example : accurate half_ulp double /\ simple_ok (ex_simple (1 / 2)) /\ 0 <= dflt 0 (sa_ror (ex_simple (1 / 2))) /\ Rabs (dflt 0 (sa_b (ex_simple (1 / 2)))) < 1 + dflt 0 (sa_ror (ex_simple (1 / 2))) /\
  half_ulp * grazing (1 + dflt 0 (sa_ror (ex_simple (1 / 2)))) (dflt 0 (sa_b (ex_simple (1 / 2)))) <= 1 / 200 /\
  (let rs := dflt 1 (sa_r_star (ex_simple (1 / 2))) in let b := dflt 0 (sa_b (ex_simple (1 / 2))) in Rabs (b * rs) < 1 / 10 + rs /\
    half_ulp * (grazing (1 + dflt 0 (sa_ror (ex_simple (1 / 2)))) b + grazing (1 / 10 + rs) (b * rs)) <= 1 / 200) /\
  time_error half_ulp (ex_simple (1 / 2)) 1000 <= / 10 ^ 12.
Proof.
  split; [apply double_ok|]. split; [apply ex_simple_ok; lra|]. cbn [ex_simple dflt sa_b sa_ror sa_r_star]. split; [lra|].
  assert (H := half_ulp_small). assert (G : grazing (1 + 1 / 10) (1 / 2) = 121 / 96) by (unfold grazing; field).
  split; [rewrite Rabs_pos_eq; lra|]. split; [rewrite G; lra|]. split.
  - cbv zeta. split; [rewrite Rabs_pos_eq; lra|]. replace (1 / 10 + 1) with (1 + 1 / 10) by lra. rewrite Rmult_1_r, G. lra.
  - unfold time_error. cbn [ex_simple dflt sa_t0 sa_period]. rewrite !Rabs_pos_eq by lra. rewrite half_ulp_is. lra.
Qed.
Lemma touch_example : simple_ok ex_touch /\ nearest (dflt 0 (sa_b ex_touch)) = dflt 0 (sa_b ex_touch) /\ Rabs (dflt 0 (sa_b ex_touch)) = 1 + dflt 0 (sa_ror ex_touch).
Proof.
  assert (A : Rabs 2 = 2) by (apply Rabs_pos_eq; lra). split; [constructor; cbn; lra|]. split; [apply (near_pow 1)|cbn; lra].
Qed.
