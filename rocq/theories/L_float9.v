(** * No NaN from rounding errors in SimpleTransitOrbit *)
From Coq Require Import Reals Lra Lia Psatz Bool List ZArith.
From Flocq Require Import Core Relative.
From Verif Require Import Num CoreOps Inst M_units M_kepler M_fin M_simple Spec_orbit Spec_params Spec_simple Spec_float Spec_float2 L_real L_fl L_float L_float2 L_float3 L_float7 L_float8 Ex_float.
Open Scope R_scope.

(** the number under the square root of simple.py:32-33 *)
Definition squared (rd : rounder) (x : sargs R) : R :=
  let one := rd OLit 1 0 1 in let ror := dflt (rd OLit 0 0 0) (sa_ror x) in let b := dflt (rd OLit 0 0 0) (sa_b x) in let r := dflt one (sa_r_star x) in
  let s := rd OAdd one ror (one + ror) in let s2 := rd OMul s s (s * s) in let b2 := rd OMul b b (b * b) in let df := rd OSub s2 b2 (s2 - b2) in
  let r2 := rd OMul r r (r * r) in rd OMul r2 df (r2 * df).

Section L.
Variable rd : rounder.
Variable x : sargs R.
Hypothesis HP : 0 < sa_period x.
Hypothesis HD : 0 < sa_duration x.
Hypothesis HX : 0 <= squared rd x.
Local Notation o := (computed_orbit rd x).
Local Notation F := (rounded_fl rd).
Local Notation of := (@simple_init fl bool (rounded_fl rd) (map_sargs Fin x)).
Ltac simF := cbn [nlit nadd nsub nmul ndiv nneg nsqrt nsin ncos nasin nacos natan2 nexp nlog
  nabs nfloor nmod npowr nkepler_sin nkepler_cos nzl npadr nsqz nlt nle nband nsw rounded_fl npw] in *.

Lemma dflt_fin d a : dflt (Fin d) (option_map Fin a) = Fin (dflt d a). Proof. destruct a; reflexivity. Qed.
Lemma of_period : s_period of = Fin (s_period o). Proof. reflexivity. Qed.
Lemma of_half : s_half_period of = Fin (s_half_period o). Proof. reflexivity. Qed.
Lemma of_t0 : s_t0 of = Fin (s_t0 o). Proof. cbn. apply dflt_fin. Qed.
Lemma of_r_star : s_r_star of = Fin (s_r_star o). Proof. cbn. apply dflt_fin. Qed.
Lemma of_duration : s_duration of = Fin (s_duration o). Proof. reflexivity. Qed.
Lemma of_ref : s_ref_time of = Fin (s_ref_time o).
Proof.
  change (s_ref_time of) with (rnd rd OSub (s_t0 of) (s_half_period of) (fsub (s_t0 of) (s_half_period of))). rewrite of_t0, of_half. reflexivity.
Qed.
Lemma of_b_norm : s_b_norm of = Fin (s_b_norm o).
Proof. cbn. rewrite !dflt_fin. reflexivity. Qed.
Lemma of_speed : s_speed of = Fin (s_speed o).
Proof.
  cbn -[Rltb Reqb]. rewrite !dflt_fin. cbn -[Rltb Reqb]. 
  change (s_speed o) with (rd ODiv (rd OMul (rd OLit 2 0 2) (rd OSqrt (squared rd x) 0 (sqrt (squared rd x))) (rd OLit 2 0 2 * rd OSqrt (squared rd x) 0 (sqrt (squared rd x)))) (sa_duration x)
    (rd OMul (rd OLit 2 0 2) (rd OSqrt (squared rd x) 0 (sqrt (squared rd x))) (rd OLit 2 0 2 * rd OSqrt (squared rd x) 0 (sqrt (squared rd x))) / sa_duration x)).
  match goal with |- context [Rltb ?X 0] => change X with (squared rd x) end.
  assert (E : Rltb (squared rd x) 0 = false). { apply not_true_is_false. intro H. apply L_real.Rltb_true in H. lra. } rewrite E. cbn -[Reqb].
  assert (E' : Reqb (sa_duration x) 0 = false). { apply not_true_is_false. intro H. apply L_real.Reqb_true in H. lra. } rewrite E'. reflexivity.
Qed.
Lemma of_dt t : @simple_dt fl bool F of (Fin t) = Fin (@simple_dt R bool (rounded rd) o t).
Proof.
  unfold simple_dt. simF. rewrite of_ref, of_period, of_half. cbn -[Reqb Rmodulo simple_init computed_orbit].
  assert (E' : Reqb (s_period o) 0 = false). { apply not_true_is_false. intro H. apply L_real.Reqb_true in H. cbn in H. lra. } rewrite E'. reflexivity.
Qed.
Lemma lift_position t : @simple_relative_position fl bool F of (Fin t) false = Ok (fin3 (computed_position rd x t)).
Proof.
  unfold simple_relative_position, computed_position, simple_relative_position. simF. rewrite of_dt, of_speed, of_b_norm, of_duration. cbn -[Rltb simple_dt computed_orbit].
  cbn [nlt nmul nlit rounded nabs]. destruct (Rltb _ _); reflexivity.
Qed.
Lemma lift_mask_duration t e : @simple_mask fl bool F of (Fin t) None (option_map Fin e) = computed_mask rd x t None e.
Proof.
  unfold simple_mask, computed_mask, simple_mask. simF. rewrite of_dt, of_duration. destruct e; reflexivity.
Qed.
Lemma lift_mask_reach t r e : s_speed o <> 0 ->
  (let s := rd OAdd r (s_r_star o) (r + s_r_star o) in let s2 := rd OMul s s (s * s) in let b2 := rd OMul (s_b_norm o) (s_b_norm o) (s_b_norm o * s_b_norm o) in 0 <= rd OSub s2 b2 (s2 - b2)) ->
  @simple_mask fl bool F of (Fin t) (Some (Fin r)) (option_map Fin e) = computed_mask rd x t (Some r) e.
Proof.
  intros S0 Q. unfold simple_mask, computed_mask, simple_mask. simF. rewrite of_dt, of_speed, of_r_star, of_b_norm. cbn -[Rltb Reqb simple_dt computed_orbit].
  match goal with |- context [if Rltb ?X 0 then NaN else Fin (sqrt ?X)] => assert (E : Rltb X 0 = false) by (apply not_true_is_false; intro H; apply L_real.Rltb_true in H; apply (Rlt_irrefl 0); eapply Rle_lt_trans; [exact Q|exact H]) end.
  rewrite E. cbn -[Rltb Reqb simple_dt computed_orbit].
  assert (E' : Reqb (s_speed o) 0 = false). { apply not_true_is_false. intro H. apply L_real.Reqb_true in H. contradiction. } rewrite E'. destruct e; reflexivity.
Qed.
End L.

(** away from grazing, for all arithmetics *)
Lemma computed_finite u rd : accurate u rd -> forall x, simple_ok x -> 0 <= dflt 0 (sa_ror x) -> Rabs (dflt 0 (sa_b x)) < 1 + dflt 0 (sa_ror x) -> u * grazing (1 + dflt 0 (sa_ror x)) (dflt 0 (sa_b x)) <= 1 / 200 ->
  let o := @simple_init fl bool (rounded_fl rd) (map_sargs Fin x) in
  (forall t, @simple_relative_position fl bool (rounded_fl rd) o (Fin t) false = Ok (fin3 (computed_position rd x t))) /\
  (forall t e, @simple_mask fl bool (rounded_fl rd) o (Fin t) None (option_map Fin e) = computed_mask rd x t None e) /\
  (forall t r e, 0 <= r -> let rs := dflt 1 (sa_r_star x) in let b := dflt 0 (sa_b x) in Rabs (b * rs) < r + rs -> u * grazing (r + rs) (b * rs) <= 1 / 200 ->
    @simple_mask fl bool (rounded_fl rd) o (Fin t) (Some (Fin r)) (option_map Fin e) = computed_mask rd x t (Some r) e).
Proof.
  intros Acc x Ox Hror Hb Hg o. assert (HP := so_period x Ox). assert (HD := so_duration x Ox). assert (U := proj1 Acc). set (v := u / (1 - u)).
  assert (Sp := o_speed u rd Acc x Ox Hror Hb Hg). assert (SP : 0 < s_speed (computed_orbit rd x)).
  { apply (ap_pos u _ _ _ Sp). apply Rdiv_lt_0_compat; [|exact HD]. assert (K := chord_pos x Ox Hror Hb). lra. }
  assert (HX : 0 <= squared rd x).
  { destruct (Rle_dec 0 (squared rd x)) as [h|h]; [exact h|exfalso]. apply Rnot_le_lt in h.
    assert (Z : s_speed (computed_orbit rd x) = 0); [|lra].
    change (s_speed (computed_orbit rd x)) with (rd ODiv (rd OMul (rd OLit 2 0 2) (rd OSqrt (squared rd x) 0 (sqrt (squared rd x))) (rd OLit 2 0 2 * rd OSqrt (squared rd x) 0 (sqrt (squared rd x)))) (sa_duration x)
      (rd OMul (rd OLit 2 0 2) (rd OSqrt (squared rd x) 0 (sqrt (squared rd x))) (rd OLit 2 0 2 * rd OSqrt (squared rd x) 0 (sqrt (squared rd x))) / sa_duration x)).
    rewrite (sqrt_neg (squared rd x)) by lra. rewrite (rd_zero u rd Acc OSqrt), Rmult_0_r, (rd_zero u rd Acc OMul). unfold Rdiv. rewrite Rmult_0_l. apply (rd_zero u rd Acc). }
  split; [|split].
  - intro t. apply lift_position; assumption.
  - intros t e. apply lift_mask_duration; assumption.
  - intros t r e Hr rs b Hbr Hg2. apply lift_mask_reach; try assumption; [lra|]. cbv zeta. left. assert (R0 := so_r_star x Ox). fold rs in R0.
    assert (A1 : ap v 2 (rd OAdd r (s_r_star (computed_orbit rd x)) (r + s_r_star (computed_orbit rd x))) (r + rs)).
    { apply (ap_weak u U (1 + 1)); [|lra]. apply (rd_ap u rd Acc). apply (ap_add u); [exact Hr|lra|apply (ap_weak u U 0); [apply ap_refl|lra]|apply (o_rs u rd Acc)]. }
    set (s := rd OAdd r (s_r_star (computed_orbit rd x)) (r + s_r_star (computed_orbit rd x))) in *. set (B := s_b_norm (computed_orbit rd x)).
    assert (A2 : ap v 5 (rd OMul s s (s * s)) ((r + rs) * (r + rs))). { apply (ap_weak u U (2 + 2 + 1)); [|lra]. apply (rd_ap u rd Acc). apply (ap_mul u); exact A1. }
    assert (A3 : ap v 5 (rd OMul B B (B * B)) (b * rs * (b * rs))). { apply (ap_weak u U (2 + 2 + 1)); [|lra]. apply (rd_ap u rd Acc). apply (ap_mul u); apply (o_b_norm u rd Acc x Hb Hg). }
    assert (A4 := diff_squares u rd Acc 5 5 (r + rs) (b * rs) _ _ ltac:(lra) Hbr A2 A3 ltac:(lra) ltac:(lra) Hg2).
    assert (A5 := rd_ap u rd Acc OSub (rd OMul s s (s * s)) (rd OMul B B (B * B)) _ _ _ A4). apply (ap_pos u _ _ _ A5). apply grazing_ge; [lra|exact Hbr].
Qed.

(** double precision: no NaN whatever the impact parameter *)
Lemma near_mono a b : a <= b -> nearest a <= nearest b.
Proof. intro H. apply round_le; [apply FLX_exp_valid; reflexivity|apply valid_rnd_N|exact H]. Qed.
Lemma near_0 : nearest 0 = 0.
Proof. apply round_0. apply valid_rnd_N. Qed.
Lemma near_1 : nearest 1 = 1.
Proof.
  apply round_generic; [apply valid_rnd_N|]. change 1 with (bpow radix2 0). apply generic_format_bpow. cbn. lia.
Qed.
Lemma near_abs a : nearest a = a -> nearest (Rabs a) = Rabs a.
Proof.
  intro H. unfold Rabs. destruct (Rcase_abs a); [|exact H]. apply round_generic; [apply valid_rnd_N|]. apply generic_format_opp. rewrite <- H. apply generic_format_round; [apply FLX_exp_valid; reflexivity|apply valid_rnd_N].
Qed.
Lemma double_finite x : simple_ok x -> nearest (dflt 0 (sa_b x)) = dflt 0 (sa_b x) ->
  let o := @simple_init fl bool (rounded_fl double) (map_sargs Fin x) in
  (forall t, @simple_relative_position fl bool (rounded_fl double) o (Fin t) false = Ok (fin3 (computed_position double x t))) /\
  (forall t e, @simple_mask fl bool (rounded_fl double) o (Fin t) None (option_map Fin e) = computed_mask double x t None e).
Proof.
  intros Ox Hb o. assert (HP := so_period x Ox). assert (HD := so_duration x Ox). assert (HX : 0 <= squared double x).
  { unfold squared. cbv zeta. cbn [double]. rewrite near_0, near_1. set (ror := dflt 0 (sa_ror x)). set (b := dflt 0 (sa_b x)) in *.
    set (s := if Req_EM_T ror 0 then 1 + ror else nearest (1 + ror)). set (r := dflt 1 (sa_r_star x)).
    assert (Hs : Rabs b <= s). { assert (K := so_b x Ox). fold b ror in K. unfold s. destruct (Req_EM_T ror 0); [exact K|]. rewrite <- (near_abs b Hb). apply near_mono. exact K. }
    rewrite <- near_0. apply near_mono. apply Rmult_le_pos.
    - rewrite <- near_0. apply near_mono. apply Rle_0_sqr.
    - rewrite <- near_0. apply near_mono. apply Rle_0_minus. apply near_mono. assert (B0 := Rabs_pos b). rewrite <- (Rabs_pos_eq (b * b)) by apply Rle_0_sqr. rewrite Rabs_mult. apply Rmult_le_compat; assumption. }
  split; [intro t; apply lift_position; assumption|intros t e; apply lift_mask_duration; assumption].
Qed.
