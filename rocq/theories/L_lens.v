(** * The common area of two disks decreases strictly while they partly overlap *)
From Coq Require Import Reals Lra Lia Psatz List Bool Arith ZArith.
From Coquelicot Require Import Coquelicot.
From Verif Require Import Num CoreOps Inst CoreFlux M_units M_kepler M_fin M_tensor M_limbdark Spec_orbit Spec_params Spec_array Spec_light Spec_depth
  L_real L_flux L_light1 L_area L_depth L_depth2.
Open Scope R_scope.

Section A.
Variable r : R.
Hypothesis Hr : 0 < r.
Let W2 b := 4 * (b * b) - (1 + b * b - r * r) * (1 + b * b - r * r).
Lemma lens_W2_pos b : Rabs (1 - r) < b < 1 + r -> 0 < W2 b.
Proof.
  intros [H1 H2]. assert (P := Rabs_pos (1 - r)). assert (Q : W2 b = ((1 + r - b) * (1 + r + b)) * ((b - Rabs (1 - r)) * (b + Rabs (1 - r)))).
  { assert (E : Rabs (1 - r) * Rabs (1 - r) = (1 - r) * (1 - r)) by (rewrite <- Rabs_mult; apply Rabs_pos_eq, Rle_0_sqr).
    replace ((b - Rabs (1 - r)) * (b + Rabs (1 - r))) with (b * b - Rabs (1 - r) * Rabs (1 - r)) by ring. rewrite E. unfold W2. ring. }
  rewrite Q. repeat apply Rmult_lt_0_compat; lra.
Qed.
Lemma common_derive b : Rabs (1 - r) < b < 1 + r -> is_derive (fun b => common_area b r) b (- sqrt (W2 b) / b).
Proof.
  intros H. assert (P := Rabs_pos (1 - r)). assert (Hb : 0 < b) by lra. assert (W := lens_W2_pos b H). assert (SW := sqrt_lt_R0 _ W). assert (SS := sqrt_sqrt (W2 b) ltac:(lra)).
  set (c := fun b => (1 + b * b - r * r) / (2 * b)). set (d := fun b => (b * b + r * r - 1) / (2 * b * r)).
  assert (Dn : 0 < 2 * b) by lra. assert (Dn' : 0 < 2 * b * r) by nra.
  assert (C2 : 1 - c b * c b = W2 b / (2 * b * (2 * b))) by (unfold c, W2; field; lra).
  assert (D2 : 1 - d b * d b = W2 b / (2 * b * r * (2 * b * r))) by (unfold d, W2; field; lra).
  assert (C3 : 0 < 1 - c b * c b) by (rewrite C2; apply Rdiv_lt_0_compat; nra). assert (D3 : 0 < 1 - d b * d b) by (rewrite D2; apply Rdiv_lt_0_compat; nra).
  assert (Bc : -1 < c b < 1) by (split; nra). assert (Bd : -1 < d b < 1) by (split; nra).
  assert (Sc : sqrt (1 - c b * c b) = sqrt (W2 b) / (2 * b)) by (rewrite C2, sqrt_div_alt, sqrt_square by nra; reflexivity).
  assert (Sd : sqrt (1 - d b * d b) = sqrt (W2 b) / (2 * b * r)) by (rewrite D2, sqrt_div_alt, sqrt_square by nra; reflexivity).
  assert (Dc : is_derive c b ((b * b - 1 + r * r) / (2 * (b * b)))) by (unfold c; auto_derive; [lra|field; lra]).
  assert (Dd : is_derive d b ((b * b - r * r + 1) / (2 * (b * b) * r))) by (unfold d; auto_derive; [lra|field; lra]).
  assert (Ac := is_derive_comp acos c b _ _ (acos_derive _ Bc) Dc). assert (Ad := is_derive_comp acos d b _ _ (acos_derive _ Bd) Dd).
  assert (Dw : is_derive (fun s => sqrt (W2 s)) b (2 * b * (1 - b * b + r * r) / sqrt (W2 b))).
  { unfold W2. auto_derive; [exact W|]. fold (W2 b). replace (4 * (b * b) + - ((1 + b * b + - (r * r)) * (1 + b * b + - (r * r)))) with (W2 b) by (unfold W2; ring). field. lra. }
  change (fun b => common_area b r) with (fun s => acos (c s) + r * r * acos (d s) - sqrt (W2 s) / 2).
  assert (Q2 := is_derive_scal (fun s => acos (d s)) b (r * r) _ Ad).
  assert (Q3 := is_derive_scal (fun s => sqrt (W2 s)) b (/ 2) _ Dw).
  assert (Q := is_derive_minus (V := R_NormedModule) _ _ b _ _ (is_derive_plus (V := R_NormedModule) _ _ b _ _ Ac Q2) Q3).
  eapply is_derive_ext; [|eapply eq_rect; [exact Q|]].
  - intro y. unfold plus, minus, opp, mult. cbn. unfold plus, mult. cbn. unfold Rdiv. ring.
  - unfold minus, plus, opp, scal, mult. cbn. unfold mult, plus. cbn. rewrite Sc, Sd. fold (W2 b). set (w := sqrt (W2 b)) in *. apply (Rmult_eq_reg_r (w * b)); [|apply Rgt_not_eq; nra].
    replace (- w / b * (w * b)) with (- (w * w)) by (field; lra). rewrite SS. unfold W2. field. repeat split; lra.
Qed.
Lemma common_strict b b' : Rabs (1 - r) < b -> b < b' -> b' < 1 + r -> common_area b' r < common_area b r.
Proof.
  intros H1 H2 H3. destruct (MVT_gen (fun b => common_area b r) b b' (fun b => - sqrt (W2 b) / b)) as (c & Hc & E).
  - intros s Hs. rewrite Rmin_left, Rmax_right in Hs by lra. apply common_derive. lra.
  - intros s Hs. rewrite Rmin_left, Rmax_right in Hs by lra. apply continuity_pt_filterlim. apply (ex_derive_continuous (V := R_NormedModule) (fun b => common_area b r)). eexists. apply common_derive. lra.
  - rewrite Rmin_left, Rmax_right in Hc by lra. assert (W := lens_W2_pos c ltac:(lra)). assert (SW := sqrt_lt_R0 _ W). assert (P := Rabs_pos (1 - r)).
    assert (0 < sqrt (W2 c) / c * (b' - b)) by (apply Rmult_lt_0_compat; [apply Rdiv_lt_0_compat; lra|lra]). unfold Rdiv in *. assert (E' : common_area b' r - common_area b r = - (sqrt (W2 c) * / c * (b' - b))) by (rewrite E; ring). lra.
Qed.
(** so does the light lost *)
Lemma uniform_strict b b' los los' : 0 < los -> 0 < los' -> Rabs (1 - r) < b -> b < b' -> b' < 1 + r -> rel_flux 0 0 b r los < rel_flux 0 0 b' r los'.
Proof.
  intros L L' H1 H2 H3. assert (P := Rabs_pos (1 - r)). assert (Hpi := PI_RGT_0). rewrite !uniform_common by lra. rewrite !Rabs_pos_eq by lra. apply Ropp_lt_contravar. unfold Rdiv. apply Rmult_lt_compat_r; [apply Rinv_0_lt_compat; exact Hpi|]. apply common_strict; assumption.
Qed.
Lemma band_strict b b' : Rabs (1 - r) < b -> b < b' -> b' < 1 + r -> RInt (band b' r) 0 1 < RInt (band b r) 0 1.
Proof.
  intros H1 H2 H3. assert (P := Rabs_pos (1 - r)). assert (Hpi := PI_RGT_0). assert (Q := uniform_strict b b' 1 1 ltac:(lra) ltac:(lra) H1 H2 H3).
  rewrite !rel_hidden in Q by (rewrite ?uniform_disk; lra). rewrite uniform_disk, !uniform_hidden, !Rabs_pos_eq in Q by lra. set (Y := RInt (band b r) 0 1) in *. set (Y' := RInt (band b' r) 0 1) in *.
  apply (Rmult_lt_compat_r PI) in Q; [|exact Hpi]. replace (- Y / PI * PI) with (- Y) in Q by (field; lra). replace (- Y' / PI * PI) with (- Y') in Q by (field; lra). lra.
Qed.
Lemma hidden_strict g b b' : (forall x, continuous g x) -> 0 < g 0 -> (forall mu mu', 0 <= mu <= mu' -> mu' <= 1 -> g mu <= g mu') -> Rabs (1 - r) < b -> b < b' -> b' < 1 + r -> hidden_flux g b' r < hidden_flux g b r.
Proof.
  intros Hc Hg Hm H1 H2 H3. assert (P := Rabs_pos (1 - r)). set (g1 := fun mu => g mu - g 0).
  assert (Hc1 : forall x, continuous g1 x) by (intro x; apply (continuous_minus (V := R_NormedModule) g (fun _ => g 0)); [apply Hc|apply continuous_const]).
  assert (D := hidden_flux_distance g1 Hc1 b b' r ltac:(lra) ltac:(lra) ltac:(intros mu Hmu; unfold g1; assert (Q := Hm 0 mu ltac:(lra) ltac:(lra)); lra) ltac:(intros mu mu' h h'; unfold g1; assert (Q := Hm mu mu' h h'); lra)).
  assert (Lin : forall c, 0 < c -> hidden_flux g c r = g 0 * RInt (band c r) 0 1 + hidden_flux g1 c r).
  { intros c h. unfold hidden_flux. assert (I1 := band_int c r 0 1 ltac:(lra) ltac:(lra) ltac:(lra) ltac:(lra)). assert (I2 := hidden_int1 g1 Hc1 c r ltac:(lra) ltac:(lra)).
    assert (E : RInt (fun rho => g (mu_of rho) * band c r rho) 0 1 = RInt (fun rho => plus (scal (g 0) (band c r rho)) (g1 (mu_of rho) * band c r rho)) 0 1).
    { apply RInt_ext. intros y _. unfold g1, plus, scal, mult. cbn. unfold mult. cbn. eqR. ring. }
    rewrite E. rewrite (RInt_plus (V := R_CompleteNormedModule) (fun rho => scal (g 0) (band c r rho)) (fun rho => g1 (mu_of rho) * band c r rho)); [|apply (ex_RInt_scal (V := R_NormedModule)), I1|exact I2].
    rewrite (RInt_scal (V := R_CompleteNormedModule) (band c r)) by exact I1. reflexivity. }
  rewrite !Lin by lra. assert (S := band_strict b b' H1 H2 H3). assert (g 0 * RInt (band b' r) 0 1 < g 0 * RInt (band b r) 0 1) by (apply Rmult_lt_compat_l; assumption). lra.
Qed.
Lemma rel_strict u1 u2 b b' los los' : darkening u1 u2 -> 0 < intensity u1 u2 0 -> 0 < los -> 0 < los' -> Rabs (1 - r) < b -> b < b' -> b' < 1 + r -> rel_flux u1 u2 b r los < rel_flux u1 u2 b' r los'.
Proof.
  intros Hk Hi L L' H1 H2 H3. assert (P := Rabs_pos (1 - r)). assert (Sh : forall mu, 0 <= mu <= 1 -> 0 < intensity u1 u2 mu) by (intros mu Hmu; assert (Q := Hk 0 mu ltac:(lra) ltac:(lra)); lra).
  assert (D : 0 < disk_flux u1 u2). { rewrite disk_value. apply Rmult_lt_0_compat; [apply PI_RGT_0|]. apply darkening_iff in Hk. assert (Q := Sh 0 ltac:(lra)). unfold intensity in Q. lra. }
  rewrite !rel_hidden by lra. rewrite !Rabs_pos_eq by lra. unfold Rdiv. apply Rmult_lt_compat_r; [apply Rinv_0_lt_compat, D|]. apply Ropp_lt_contravar. apply hidden_strict; try assumption. intro; apply intensity_cont.
Qed.
Lemma rel_injective u1 u2 b b' los los' : darkening u1 u2 -> 0 < intensity u1 u2 0 -> 0 < los -> 0 < los' -> Rabs (1 - r) < b < 1 + r -> Rabs (1 - r) < b' < 1 + r -> rel_flux u1 u2 b r los = rel_flux u1 u2 b' r los' -> b = b'.
Proof.
  intros Hk Hi L L' H1 H2 E. destruct (Rtotal_order b b') as [h|[h|h]]; [|exact h|].
  - assert (Q := rel_strict u1 u2 b b' los los' Hk Hi L L' ltac:(lra) h ltac:(lra)). lra.
  - assert (Q := rel_strict u1 u2 b' b los' los Hk Hi L' L ltac:(lra) h ltac:(lra)). lra.
Qed.
End A.
