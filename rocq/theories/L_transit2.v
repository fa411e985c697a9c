(** * in_transit on machine numbers, one planet *)
From Coq Require Import Reals List Bool Arith ZArith Lra Lia Psatz.
From Verif Require Import Num CoreOps Inst M_units M_kepler M_fin M_tensor Spec_orbit Spec_params Spec_array L_real L_orbit L_params4 L_fl L_fl2 L_fl3 L_transit.
Import ListNotations.
Open Scope R_scope.

Lemma fmul_nan_r a : fmul a NaN = NaN. Proof. destruct a; reflexivity. Qed.
Lemma fdiv_nan_l a : fdiv NaN a = NaN. Proof. destruct a; reflexivity. Qed.
Lemma fadd_nan_r a : fadd a NaN = NaN. Proof. destruct a; reflexivity. Qed.
Lemma fadd_nan_l a : fadd NaN a = NaN. Proof. destruct a; reflexivity. Qed.
Lemma fle_nan_l a : fle NaN a = false. Proof. destruct a; reflexivity. Qed.
Lemma fle_nan_r a : fle a NaN = false. Proof. destruct a; reflexivity. Qed.

Section S.
Variable k : consts.
Hypothesis kok : consts_ok k.
Variable x : kargs R.
Variable o : orbit R.
Hypothesis H : kep_init k x = Ok o.
Hypothesis ph : physical o.
Hypothesis circ : o_ecc o = None.
Variable r : R.
Variable wf : bool -> fl -> fl.
Variable cp : fl -> fl -> fl -> fl -> fl -> fl -> fl -> fl * fl * fl.
Variables (t : fl) (u : R).
Hypothesis Hwf : wf true t = Fin u.

Lemma since_fin : since_transit (fin_orbit o) wf t
  = Fin (Rmodulo (u + 0.5 * o_period o) (o_period o) - 0.5 * o_period o).
Proof.
  assert (P := ph_period _ ph). unfold since_transit. rewrite Hwf. cbn [fin_orbit map_orbit o_period].
  fn. rewrite fmod_fin by lra. reflexivity.
Qed.

Lemma window_circ_fin : 
  transit_window (fin_orbit o) cp (Fin r) =
  let g := (1 + r / o_r_star o) * (1 + r / o_r_star o) - o_b o * o_b o in
  let h := fdiv (fmul (Fin (0.5 * o_period o)) (farc asin (fmul (fdiv (Fin (o_r_star o)) (Fin (o_a o * o_sin_incl o))) (fsqrt (Fin g))))) (Fin PI) in
  (fneg h, h, Fin 0).
Proof.
  assert (R := ph_r_star _ ph). unfold transit_window. cbn [fin_orbit map_orbit o_ecc o_a o_r_star o_period o_b o_sin_incl].
  rewrite circ. cbn [option_map]. fn.
  rewrite !Rplus_0_r. rewrite (fdiv_fin r) by lra. reflexivity.
Qed.

Lemma mask_circ te : 0 <= r -> o_r_star o + r < o_a o -> 0 <= o_sin_incl o -> 0 <= pad_of te ->
  exists b, transit_mask (fin_orbit o) wf cp t (Fin r) (option_map Fin te) = (b, Fin 0) /\
  (b = true <-> exists s, Rabs (s - u) <= pad_of te / 2 /\ transits k o r (o_t0 o + s)).
Proof.
  intros Hr Ha Hi He. unfold transit_mask. rewrite window_circ_fin, since_fin. cbv zeta.
  set (g := _ - o_b o * o_b o). set (dt := Rmodulo _ _ - _).
  eexists. split; [reflexivity|].
  assert (A := ph_a _ ph). assert (R := ph_r_star _ ph). assert (P := ph_period _ ph). assert (Hpi := PI_RGT_0).
  destruct (Rle_or_lt 0 g) as [Hg|Hg].
  - destruct (grazing_arg k kok x o H ph circ r Hr Ha Hi Hg) as (Sp & Hy & _).
    assert (D : 0 < o_a o * o_sin_incl o) by nra.
    rewrite (fsqrt_fin g Hg), (fdiv_fin (o_r_star o)) by lra.
    change (fmul (Fin (o_r_star o / (o_a o * o_sin_incl o))) (Fin (sqrt g))) with (Fin (o_r_star o / (o_a o * o_sin_incl o) * sqrt g)).
    rewrite fasin_fin by (unfold g; lra).
    set (h := fdiv _ _). assert (Eh : h = Fin (hdur o r)).
    { unfold h. change (fmul (Fin (0.5 * o_period o)) (Fin (asin (o_r_star o / (o_a o * o_sin_incl o) * sqrt g))))
        with (Fin (0.5 * o_period o * asin (o_r_star o / (o_a o * o_sin_incl o) * sqrt g))).
      rewrite fdiv_fin by lra. reflexivity. }
    rewrite Eh. assert (Wp := window_pad k kok x o H ph circ r Hr Ha Hi u (pad_of te) He Hg). cbv zeta in Wp. fold dt in Wp. rewrite <- Wp.
    assert (E : forall a b, (fle (Fin (- (hdur o r) - a)) (Fin dt) && fle (Fin dt) (Fin (hdur o r + b)))%bool = true <-> - hdur o r - a <= dt /\ dt <= hdur o r + b).
    { intros a b. rewrite andb_true_iff. cbn [fle]. rewrite !L_real.Rleb_true. reflexivity. }
    assert (Q : forall a, Rabs dt <= a <-> - a <= dt /\ dt <= a).
    { intro a. split; [apply Rabs_le_between|apply Rabs_le]. }
    rewrite Q.
    destruct te as [e|]; cbn [option_map pad_of].
    + fn. cbn [fneg fadd]. 
      specialize (E (0.5 * e) (0.5 * e)). unfold Rminus in *. cbn in *. rewrite E. split; lra.
    + specialize (E 0 0). fn. cbn [fneg]. rewrite Rminus_0_r, Rplus_0_r in E. cbn in *. rewrite E. split; lra.
  - assert (En : fsqrt (Fin g) = NaN) by (unfold fsqrt; rewrite (Rltb_true g 0 Hg); reflexivity).
    rewrite En, fmul_nan_r. cbn [farc]. rewrite fmul_nan_r, fdiv_nan_l.
    split.
    + intro B. exfalso. apply andb_true_iff in B. destruct B as [B _].
      destruct te as [e|]; cbn [option_map] in B; discriminate B.
    + intros (s & _ & T). exfalso. revert T. apply (no_transit k kok x o H ph circ r Hr).
      destruct (Rlt_or_le (1 + r / o_r_star o) (Rabs (o_b o))) as [|L]; [assumption|]. exfalso.
      assert (0 <= r / o_r_star o). { apply Rmult_le_pos; [assumption|]. apply Rlt_le, Rinv_0_lt_compat; assumption. }
      assert (B0 := Rabs_pos (o_b o)).
      assert (Rabs (o_b o) * Rabs (o_b o) = o_b o * o_b o) by (unfold Rabs; destruct (Rcase_abs (o_b o)); ring).
      unfold g in Hg. nra.
Qed.
End S.

(** ** eccentric orbits *)
Section E.
Variable k : consts.
Hypothesis kok : consts_ok k.
Variable x : kargs R.
Variable o : orbit R.
Hypothesis H : kep_init k x = Ok o.
Hypothesis ph : physical o.
Variable d : eccd R.
Hypothesis ecc : o_ecc o = Some d.
Variable r : R.
Variable wf : bool -> fl -> fl.
Variable cp : fl -> fl -> fl -> fl -> fl -> fl -> fl -> fl * fl * fl.
Variables (t : fl) (u : R).
Hypothesis Hwf : wf true t = Fin u.
Let F := kep_init_facts k kok x o H ph.

Lemma wrap_small P y (m : Z) : 0 < P -> - (P / 2) <= y < P / 2 ->
  Rmodulo (y + IZR m * P + 0.5 * P) P - 0.5 * P = y.
Proof.
  intros HP Hy. replace (y + IZR m * P + 0.5 * P) with ((y + 0.5 * P) + IZR m * P) by ring.
  rewrite Rmodulo_add_mult by lra. rewrite (Rmodulo_unique (y + 0.5 * P) P 0) by lra. lra.
Qed.

Lemma mask_ecc te al be (m1 m2 : Z) f :
  cp (Fin (o_a o)) (Fin (e_ecc d)) (Fin (e_cosw d)) (Fin (e_sinw d)) (Fin (o_cos_incl o)) (Fin (o_sin_incl o)) (Fin (o_r_star o + r))
   = (Fin (o_M0 o - al * o_n o + IZR m1 * (2 * PI)), Fin (o_M0 o + be * o_n o + IZR m2 * (2 * PI)), f) ->
  0 <= al -> 0 <= be -> 0 <= pad_of te ->
  al + pad_of te / 2 < o_period o / 2 -> be + pad_of te / 2 < o_period o / 2 ->
  exists b, transit_mask (fin_orbit o) wf cp t (Fin r) (option_map Fin te) = (b, f) /\
  (b = true <-> exists m : Z, IZR m * o_period o - al - pad_of te / 2 <= u <= IZR m * o_period o + be + pad_of te / 2).
Proof.
  intros Hcp Hal Hbe He Ha Hb. assert (P := ph_period _ ph). assert (Hpi := PI_RGT_0).
  assert (En := of_n _ _ _ F).
  assert (Hn : o_n o <> 0). { rewrite En. assert (0 < 2 * PI / o_period o) by (apply Rdiv_lt_0_compat; lra). lra. }
  unfold transit_mask, transit_window. rewrite (since_fin o ph wf t u Hwf).
  cbn [fin_orbit map_orbit o_ecc o_a o_r_star o_period o_b o_sin_incl o_cos_incl o_M0 o_n]. rewrite ecc.
  cbn [option_map map_eccd e_ecc e_cosw e_sinw]. fn. rewrite !Rplus_0_r. rewrite Hcp. fn. cbn [fadd fneg].
  rewrite !fdiv_fin by assumption. fn. cbn [fadd fneg]. rewrite !fmod_fin by lra. fn.
  replace ((o_M0 o - al * o_n o + IZR m1 * (2 * PI) + - o_M0 o) / o_n o) with (- al + IZR m1 * o_period o) by (rewrite En; field; split; lra).
  replace ((o_M0 o + be * o_n o + IZR m2 * (2 * PI) + - o_M0 o) / o_n o) with (be + IZR m2 * o_period o) by (rewrite En; field; split; lra).
  unfold Rminus in *.
  assert (W1 := wrap_small (o_period o) (- al) m1 P ltac:(lra)). assert (W2 := wrap_small (o_period o) be m2 P ltac:(lra)).
  unfold Rminus in W1, W2. rewrite W1, W2. cbn [flt]. rewrite (Rltb_false 0 (- al)) by lra. rewrite (Rltb_false be 0) by lra.
  eexists. split; [reflexivity|].
  destruct (wrap_half_eq u (o_period o) P) as (m & Em & Bm). unfold Rminus in Em, Bm. set (dt := Rmodulo _ _ + _).
  change (dt = u + - (IZR m * o_period o)) in Em. rewrite <- Em in Bm. clearbody dt.
  assert (Q : (exists m : Z, IZR m * o_period o + - al + - (pad_of te / 2) <= u <= IZR m * o_period o + be + pad_of te / 2)
     <-> - al - pad_of te / 2 <= dt /\ dt <= be + pad_of te / 2).
  { split.
    - intros (m' & L1 & L2).
      assert (C : IZR m' = IZR m \/ IZR m' <= IZR m - 1 \/ IZR m + 1 <= IZR m').
      { destruct (Z.lt_trichotomy m' m) as [K|[K|K]].
        - right; left. rewrite <- minus_IZR. apply IZR_le. lia.
        - left. congruence.
        - right; right. rewrite <- plus_IZR. apply IZR_le. lia. }
      destruct C as [C|[C|C]].
      + rewrite C in *. lra.
      + assert (IZR m' * o_period o <= IZR m * o_period o - o_period o) by nra. lra.
      + assert (IZR m * o_period o + o_period o <= IZR m' * o_period o) by nra. lra.
    - intros [L1 L2]. exists m. lra. }
  rewrite Q. clear Q. destruct te as [e|]; cbn [option_map pad_of] in *; fn; rewrite andb_true_iff; cbn [fle]; rewrite !L_real.Rleb_true; split; lra.
Qed.
End E.
