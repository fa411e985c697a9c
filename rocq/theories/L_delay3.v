(** * The light-travel equation and how well the code solves it *)
From Coq Require Import Reals Lra Psatz.
From Coquelicot Require Import Coquelicot.
From Verif Require Import Num CoreOps Inst M_units M_kepler M_fin Spec_orbit Spec_params Spec_delay Spec_secondary
  L_real L_kepop L_orbit L_params3 L_motion L_pmotion L_pmotion2 L_delay L_pmotion5.
Open Scope R_scope.

(** a Lipschitz function crosses a steeper line exactly once *)
Lemma cross_once (z : R -> R) c L : 0 <= L -> L < c ->
  (forall a b, Rabs (z a - z b) <= L * Rabs (a - b)) ->
  forall t, exists d0, c * d0 = - z (t - d0) /\ (forall d, (c - L) * Rabs (d - d0) <= Rabs (c * d - - z (t - d))).
Proof.
  intros HL Hc Lz t.
  assert (E : exists d0, c * d0 = - z (t - d0)).
  { set (F := fun d => c * d + z (t - d)).
    assert (CF : continuity F).
    { intros y. unfold F. intros eps He. exists (eps / (c + L)). split. { apply Rdiv_lt_0_compat; lra. }
      intros w [_ Hw]. unfold dist in *. cbn in *. unfold R_dist in *.
      replace (c * w + z (t - w) - (c * y + z (t - y))) with (c * (w - y) + (z (t - w) - z (t - y))) by ring.
      eapply Rle_lt_trans. { apply Rabs_triang. }
      assert (A := Lz (t - w) (t - y)). replace (t - w - (t - y)) with (- (w - y)) in A by ring. rewrite Rabs_Ropp in A.
      rewrite Rabs_mult, (Rabs_pos_eq c) by lra.
      assert (B : Rabs (w - y) * (c + L) < eps). { apply (Rmult_lt_compat_r (c + L)) in Hw; [|lra]. unfold Rdiv in Hw. rewrite Rmult_assoc, Rinv_l, Rmult_1_r in Hw by lra. exact Hw. }
      lra. }
    set (M := Rabs (z t) / (c - L) + 1).
    assert (HM : Rabs (z t) < (c - L) * M). { unfold M. rewrite Rmult_plus_distr_l. replace ((c - L) * (Rabs (z t) / (c - L))) with (Rabs (z t)) by (field; lra). lra. }
    assert (M0 : 0 < M). { unfold M. assert (0 <= Rabs (z t) / (c - L)). { apply Rdiv_le_0_compat; [apply Rabs_pos|lra]. } lra. }
    assert (Lo : F (- M) < 0). { unfold F. assert (A := Lz (t - - M) t). replace (t - - M - t) with M in A by ring. rewrite (Rabs_pos_eq M) in A by lra.
      assert (A1 := Rle_abs (z (t - - M) - z t)). assert (A2 := Rle_abs (z t)). nra. }
    assert (Hi : 0 < F M). { unfold F. assert (A := Lz t (t - M)). replace (t - (t - M)) with M in A by ring. rewrite (Rabs_pos_eq M) in A by lra.
      assert (A1 := Rle_abs (z t - z (t - M))). assert (A2 := Rle_abs (- z t)). rewrite Rabs_Ropp in A2. nra. }
    destruct (IVT F (- M) M CF ltac:(lra) Lo Hi) as (d0 & _ & Hd). exists d0. unfold F in Hd. lra. }
  destruct E as (d0 & Hd). exists d0. split. { exact Hd. }
  intros d. assert (A := Lz (t - d) (t - d0)). replace (t - d - (t - d0)) with (- (d - d0)) in A by ring. rewrite Rabs_Ropp in A.
  replace (c * d - - z (t - d)) with (c * (d - d0) + (z (t - d) - z (t - d0))) by lra.
  assert (B : Rabs (c * (d - d0)) = c * Rabs (d - d0)) by (rewrite Rabs_mult, (Rabs_pos_eq c) by lra; reflexivity).
  assert (C := Rabs_triang (c * (d - d0) + (z (t - d) - z (t - d0))) (- (z (t - d) - z (t - d0)))). rewrite Rabs_Ropp in C.
  replace (c * (d - d0) + (z (t - d) - z (t - d0)) + - (z (t - d) - z (t - d0))) with (c * (d - d0)) in C by ring. lra.
Qed.

Lemma z_lipschitz : forall k (x : kargs R) o b, consts_ok k -> kep_init k x = Ok o -> physical o -> slow k o -> moving o b ->
  forall p q, Rabs (vz (pos k o b p None false) - vz (pos k o b q None false)) <= peak_speed o * Rabs (p - q).
Proof.
  intros k x o b kok H Hp Hs Hm p q.
  destruct (MVT_gen (fun u => vz (pos k o b u None false)) q p (fun u => vz (vel o b u))) as (w & _ & Hw).
  { intros u _. apply (velocity_is_derivative k x o b u kok H Hp). }
  { intros u _. apply continuity_pt_filterlim. apply (ex_derive_continuous (fun u => vz (pos k o b u None false))). eexists. apply (velocity_is_derivative k x o b u kok H Hp). }
  rewrite Hw, Rabs_mult. apply Rmult_le_compat_r. { apply Rabs_pos. }
  apply (slow_motion k x o b w kok H Hp Hs Hm).
Qed.

Lemma delay_accuracy : forall k (x : kargs R) o b t par, consts_ok k -> kep_init k x = Ok o -> physical o -> slow k o -> moving o b ->
  let z u := vz (pos k o b u None false) in
  exists d d0, pos k o b t par true = pos k o b (t - d) None false /\
    c_light k * d0 = - z (t - d0) /\ (forall d1, c_light k * d1 = - z (t - d1) -> d1 = d0) /\
    Rabs (d - d0) <= 5 / 3 * (o_a o * ((2 * PI / o_period o) * (2 * PI / o_period o)) / ((1 - ecc_of o) * (1 - ecc_of o)) / c_light k) * (d * d) /\
    Rabs (vz (pos k o b t par true) - z (t - d0)) <= peak_speed o * Rabs (d - d0).
Proof.
  intros k x o b t par kok H Hp Hs Hm z.
  destruct (delay_law k x o b t par kok H Hp Hs Hm) as (d & g & Hd & Hg & Hc & Hq & Hb). fold z in Hc, Hb.
  assert (Lz := z_lipschitz k x o b kok H Hp Hs Hm).
  assert (P0 : 0 <= peak_speed o). { assert (A := slow_motion k x o b t kok H Hp Hs Hm). cbv zeta in A. assert (B := Rabs_pos (vz (vel o b t))). lra. }
  assert (C0 : 0 < c_light k). { assert (A := slow_motion k x o b t kok H Hp Hs Hm). cbv zeta in A. unfold slow in Hs. assert (B := Rabs_pos (vz (vel o b t))).
    destruct (Rle_lt_or_eq_dec 0 (peak_speed o) P0) as [G|G]; [lra|]. rewrite <- G in A. assert (vz (vel o b t) = 0). { destruct (Rcase_abs (vz (vel o b t))); unfold Rabs in A; destruct (Rcase_abs (vz (vel o b t))); lra. } lra. }
  unfold slow in Hs.
  destruct (cross_once z (c_light k) (peak_speed o) P0 ltac:(lra) Lz t) as (d0 & E0 & S0).
  exists d, d0. split; [exact Hd|]. split; [exact E0|]. split; [|split].
  { intros d1 E1. assert (A := S0 d1). rewrite E1 in A. rewrite Rminus_eq_0, Rabs_R0 in A.
    assert (B := Rabs_pos (d1 - d0)). assert (D : Rabs (d1 - d0) = 0) by nra.
    destruct (Req_dec (d1 - d0) 0) as [G|G]; [lra|]. apply Rabs_no_R0 in G. lra. }
  { set (B := o_a o * (2 * PI / o_period o * (2 * PI / o_period o)) / ((1 - ecc_of o) * (1 - ecc_of o))) in *.
    assert (A := S0 d). assert (G := Rabs_pos (d - d0)).
    assert (K : 3 / 5 * c_light k * Rabs (d - d0) <= B * (d * d)). { eapply Rle_trans; [|exact Hb]. eapply Rle_trans; [|exact A]. apply Rmult_le_compat_r; lra. }
    apply (Rmult_le_reg_l (3 / 5 * c_light k)); [lra|].
    replace (3 / 5 * c_light k * (5 / 3 * (B / c_light k) * (d * d))) with (B * (d * d)) by (field; lra). exact K. }
  { rewrite Hd. unfold z. eapply Rle_trans. { apply Lz. } apply Rmult_le_compat_l; [exact P0|]. replace (t - d - (t - d0)) with (- (d - d0)) by ring. rewrite Rabs_Ropp. lra. }
Qed.
