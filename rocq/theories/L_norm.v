(** * The prior of vaneylen19 as a density (C96) *)
From Coq Require Import Reals List Bool Arith ZArith Lra Lia Psatz String.
From Coquelicot Require Import Coquelicot.
From Verif Require Import Num CoreOps Inst CoreDist M_kwargs M_tensor M_limbdark M_dist M_ecc Spec_dist Spec_ecc Spec_norm L_real L_ecc1 L_ecc2 L_ecc3 L_gauss.
Import ListNotations.
Local Notation length := List.length.
Open Scope R_scope.

Section D.
Variables f g r : R.
Hypothesis (Hf : 0 < f < 1) (Hg : 0 < g) (Hr : 0 < r).
Let c := sqrt 2 * g.
Lemma s2 : 0 < sqrt 2 /\ sqrt 2 * sqrt 2 = 2.
Proof. split; [apply sqrt_lt_R0; lra|apply sqrt_sqrt; lra]. Qed.
Lemma c_pos : 0 < c. Proof. unfold c. destruct s2. nra. Qed.
Lemma hn_pos x : 0 < halfnormal_density g x.
Proof.
  unfold halfnormal_density. assert (P := PI_RGT_0). apply Rmult_lt_0_compat; [|apply exp_pos].
  apply Rmult_lt_0_compat; [|apply Rinv_0_lt_compat; exact Hg]. apply sqrt_lt_R0. apply Rdiv_lt_0_compat; lra.
Qed.
Lemma hn_bell x : halfnormal_density g x = 2 / sqrt PI * (/ c * bell (/ c * x + 0)).
Proof.
  assert (P := PI_RGT_0). assert (C := c_pos). destruct s2 as [S1 S2]. assert (Sp : 0 < sqrt PI) by (apply sqrt_lt_R0; exact P).
  unfold halfnormal_density, bell. replace (- ((/ c * x + 0) * (/ c * x + 0))) with (- (x * x) / (2 * (g * g))).
  - rewrite <- (Rmult_assoc (2 / sqrt PI) (/ c)). f_equal. rewrite sqrt_div by lra. unfold c. apply Rmult_eq_reg_r with (g * sqrt 2 * sqrt PI); [|apply Rgt_not_eq; apply Rmult_lt_0_compat; [apply Rmult_lt_0_compat; assumption|assumption]].
    clear C. clear c. generalize dependent (sqrt 2). intros q S1 S2. rewrite <- S2. field. repeat split; lra.
  - assert (E : c * c = 2 * (g * g)) by (transitivity (sqrt 2 * sqrt 2 * (g * g)); [unfold c; ring|rewrite S2; reflexivity]). rewrite <- E. field. lra.
Qed.
Lemma hn_is a b : is_RInt (halfnormal_density g) a b (2 / sqrt PI * (G (/ c * b) - G (/ c * a))).
Proof.
  apply (is_RInt_ext (fun x => scal (2 / sqrt PI) (scal (/ c) (bell (/ c * x + 0))))).
  { intros x _. unfold scal; cbn; unfold mult; cbn. symmetry. apply hn_bell. }
  apply (is_RInt_scal (V := R_NormedModule) (fun x => scal (/ c) (bell (/ c * x + 0))) a b (2 / sqrt PI)).
  apply (is_RInt_comp_lin (V := R_NormedModule) bell (/ c) 0 a b).
  replace (/ c * a + 0) with (/ c * a) by ring. replace (/ c * b + 0) with (/ c * b) by ring.
  unfold G. set (u := / c * a). set (v := / c * b).
  assert (Ch := RInt_Chasles (V := R_CompleteNormedModule) bell 0 u v (bell_int _ _) (bell_int _ _)).
  replace (RInt bell 0 v - RInt bell 0 u) with (RInt bell u v).
  - apply (RInt_correct (V := R_CompleteNormedModule)). apply bell_int.
  - assert (Ch' : RInt bell 0 u + RInt bell u v = RInt bell 0 v) by exact Ch. lra.
Qed.
Lemma ra_is a b : is_RInt (rayleigh_density r) a b (exp (- (a * a) / (2 * (r * r))) - exp (- (b * b) / (2 * (r * r)))).
Proof.
  replace (exp (- (a * a) / (2 * (r * r))) - exp (- (b * b) / (2 * (r * r))))
    with (minus ((fun x => - exp (- (x * x) / (2 * (r * r)))) b) ((fun x => - exp (- (x * x) / (2 * (r * r)))) a)).
  - apply (is_RInt_derive (V := R_CompleteNormedModule) (fun x => - exp (- (x * x) / (2 * (r * r))))).
    + intros x _. unfold rayleigh_density. auto_derive; [nra|]. unfold Rdiv. field. nra.
    + intros x _. apply (ex_derive_continuous (V := R_NormedModule)). unfold rayleigh_density. auto_derive. nra.
  - unfold minus, plus, opp; cbn. ring.
Qed.
Lemma mix_is a b : is_RInt (mixture f g r) a b (share f g r a b).
Proof.
  unfold share. assert (E : RInt (halfnormal_density g) a b = 2 / sqrt PI * (G (/ c * b) - G (/ c * a))) by (apply is_RInt_unique; apply hn_is). rewrite E.
  apply (is_RInt_ext (fun x => plus (scal (1 - f) (halfnormal_density g x)) (scal f (rayleigh_density r x)))).
  { intros x _. unfold mixture, plus, scal; cbn; unfold mult; cbn. ring. }
  apply (is_RInt_plus (V := R_NormedModule)); apply (is_RInt_scal (V := R_NormedModule)); [apply hn_is|apply ra_is].
Qed.
Lemma mix_pos x : 0 <= x -> 0 < mixture f g r x.
Proof.
  intro h. unfold mixture. assert (A := hn_pos x). assert (B : 0 <= rayleigh_density r x).
  { unfold rayleigh_density. apply Rmult_le_pos; [|left; apply exp_pos]. apply Rmult_le_pos; [exact h|]. left. apply Rinv_0_lt_compat. nra. }
  nra.
Qed.
Lemma share_value b : 1 - share f g r 0 b = (1 - f) * (1 - 2 / sqrt PI * G (/ c * b)) + f * exp (- (b * b) / (2 * (r * r))).
Proof.
  unfold share. assert (E : RInt (halfnormal_density g) 0 b = 2 / sqrt PI * (G (/ c * b) - G (/ c * 0))) by (apply is_RInt_unique; apply hn_is). rewrite E.
  rewrite Rmult_0_r, G0. replace (- (0 * 0) / (2 * (r * r))) with 0 by (field; lra). rewrite exp_0. ring.
Qed.
Lemma G_strict x : 0 < x -> G x < sqrt PI / 2.
Proof.
  intro h. destruct (G_near (x + 1) ltac:(lra)) as [A _].
  assert (Ch := RInt_Chasles (V := R_CompleteNormedModule) bell 0 x (x + 1) (bell_int _ _) (bell_int _ _)).
  assert (Ch' : G x + RInt bell x (x + 1) = G (x + 1)) by exact Ch.
  assert (P : 0 < RInt bell x (x + 1)) by (apply RInt_gt_0; [lra|intros t _; apply exp_pos|intros t _; apply bell_cont]). lra.
Qed.
Lemma share_below b : 0 < b -> share f g r 0 b < 1.
Proof.
  intro h. assert (E := share_value b). assert (C := c_pos). assert (Ci := Rinv_0_lt_compat _ C). assert (Q := G_strict (/ c * b) ltac:(nra)).
  assert (Sp : 0 < sqrt PI) by (apply sqrt_lt_R0; apply PI_RGT_0). assert (X := exp_pos (- (b * b) / (2 * (r * r)))).
  assert (W : 2 / sqrt PI * G (/ c * b) < 1).
  { apply Rlt_le_trans with (2 / sqrt PI * (sqrt PI / 2)); [apply Rmult_lt_compat_l; [apply Rdiv_lt_0_compat; lra|exact Q]|]. right. field. lra. }
  nra.
Qed.
Lemma share_gap b : 0 < b -> 1 - share f g r 0 b < (4 / PI * (c * c) + 2 * (r * r)) / (b * b).
Proof.
  intro h. rewrite share_value. assert (C := c_pos). assert (Ci := Rinv_0_lt_compat _ C). set (u := / c * b). assert (u0 : 0 < u) by (unfold u; nra).
  assert (P := PI_RGT_0). assert (Sp : 0 < sqrt PI) by (apply sqrt_lt_R0; exact P). assert (Sq : sqrt PI * sqrt PI = PI) by (apply sqrt_sqrt; lra).
  destruct (G_near u u0) as [A1 A2]. assert (A3 := bell_small u u0).
  assert (W1 : 0 <= 1 - 2 / sqrt PI * G u < 4 / PI * / (u * u)).
  { replace (1 - 2 / sqrt PI * G u) with (2 / sqrt PI * (sqrt PI / 2 - G u)) by (field; lra).
    assert (k : 0 < 2 / sqrt PI) by (apply Rdiv_lt_0_compat; lra). split; [apply Rmult_le_pos; lra|].
    apply Rle_lt_trans with (2 / sqrt PI * (bell u * (2 / sqrt PI))); [apply Rmult_le_compat_l; lra|].
    assert (E4 : 2 / sqrt PI * (2 / sqrt PI) = 4 / PI) by (transitivity (4 / (sqrt PI * sqrt PI)); [field; lra|rewrite Sq; reflexivity]).
    rewrite <- E4. replace (2 / sqrt PI * (bell u * (2 / sqrt PI))) with (2 / sqrt PI * (2 / sqrt PI) * bell u) by ring.
    apply Rmult_lt_compat_l; [apply Rmult_lt_0_compat; exact k|exact A3]. }
  assert (W2 : exp (- (b * b) / (2 * (r * r))) < 2 * (r * r) / (b * b)).
  { set (v := b / (sqrt 2 * r)). destruct s2 as [S1 S2]. assert (v0 : 0 < v) by (unfold v; apply Rdiv_lt_0_compat; nra). assert (B := bell_small v v0).
    assert (Ev : v * v = b * b / (2 * (r * r))) by (transitivity (b * b / (sqrt 2 * sqrt 2 * (r * r))); [unfold v; field; split; lra|rewrite S2; reflexivity]). unfold bell in B. rewrite Ev in B.
    replace (- (b * b) / (2 * (r * r))) with (- (b * b / (2 * (r * r)))) by (field; lra).
    replace (2 * (r * r) / (b * b)) with (/ (b * b / (2 * (r * r)))) by (field; split; lra). exact B. }
  assert (W3 : 4 / PI * / (u * u) = 4 / PI * (c * c) / (b * b)) by (unfold u; field; repeat split; lra). rewrite W3 in W1.
  assert (X := exp_pos (- (b * b) / (2 * (r * r)))).
  replace ((4 / PI * (c * c) + 2 * (r * r)) / (b * b)) with (4 / PI * (c * c) / (b * b) + 2 * (r * r) / (b * b)) by (field; split; lra). nra.
Qed.
Lemma share_limit : is_lim (share f g r 0) p_infty 1.
Proof.
  set (K := 4 / PI * (c * c) + 2 * (r * r)). assert (P := PI_RGT_0). assert (C := c_pos).
  assert (K0 : 0 < K). { unfold K. assert (0 < 4 / PI) by (apply Rdiv_lt_0_compat; lra). assert (0 < c * c) by nra. nra. }
  apply is_lim_spec. intro eps. destruct eps as [ep He]. cbn. exists (Rmax 1 (K / ep)). intros b Hb.
  assert (b1 : 1 < b) by (eapply Rle_lt_trans; [apply Rmax_l|exact Hb]). assert (b2 : K / ep < b) by (eapply Rle_lt_trans; [apply Rmax_r|exact Hb]).
  assert (A := share_below b ltac:(lra)). assert (B := share_gap b ltac:(lra)). fold K in B.
  rewrite Rabs_left by lra. apply Rlt_trans with (K / (b * b)); [lra|].
  apply Rmult_lt_reg_r with (b * b); [nra|]. unfold Rdiv. rewrite Rmult_assoc, Rinv_l by nra.
  assert (K < b * ep). { apply Rmult_lt_reg_r with (/ ep); [apply Rinv_0_lt_compat; exact He|]. rewrite Rmult_assoc, Rinv_r by lra. lra. }
  nra.
Qed.
Lemma share_add a b d : share f g r a b + share f g r b d = share f g r a d.
Proof.
  assert (E := is_RInt_Chasles (V := R_NormedModule) _ _ _ _ _ _ (mix_is a b) (mix_is b d)).
  assert (U := is_RInt_unique (V := R_CompleteNormedModule) _ _ _ _ E). assert (U' := is_RInt_unique (V := R_CompleteNormedModule) _ _ _ _ (mix_is a d)).
  rewrite U' in U. symmetry. exact U.
Qed.
Lemma share_pos a b : 0 <= a < b -> 0 < share f g r a b.
Proof.
  intro h. rewrite <- (is_RInt_unique (V := R_CompleteNormedModule) _ _ _ _ (mix_is a b)). apply RInt_gt_0; [lra| |].
  - intros x Hx. apply mix_pos. lra.
  - intros x _. apply (ex_derive_continuous (V := R_NormedModule)). unfold mixture, halfnormal_density, rayleigh_density. auto_derive. repeat split; nra.
Qed.
Lemma share_in a b : 0 <= a < b -> 0 < share f g r a b < 1.
Proof.
  intro h. split; [apply share_pos; exact h|]. assert (A := share_add 0 a b). assert (B := share_below b ltac:(lra)).
  destruct (Req_dec a 0) as [i1|i1]; [subst a; exact B|]. assert (D := share_pos 0 a ltac:(lra)). lra.
Qed.
End D.
Lemma append_longer a b : b <> EmptyString -> (a ++ b)%string <> a.
Proof.
  intros Hb. induction a as [|ch a IH]; [exact Hb|]. cbn. intro E. injection E as E. exact (IH E).
Qed.
Lemma full_other p name n : full_name p name n <> name.
Proof. apply append_longer. destruct p; discriminate. Qed.
Lemma params_with p name fixed multi hs sg sr frac e v : vaneylen_parameters p name fixed multi hs sg sr frac ->
  sg (with_value e name v) = sg e /\ sr (with_value e name v) = sr e /\ frac (with_value e name v) = frac e.
Proof.
  unfold vaneylen_parameters. destruct (vaneylen_table multi) as [[[a1 a2] [b1 b2]] [c1 c2]]. destruct fixed.
  - intros [_ H]. destruct (H e) as (-> & -> & ->). apply H.
  - intros [H _]. destruct (H e) as (-> & -> & ->). destruct (H (with_value e name v)) as (-> & -> & ->).
    unfold with_value. rewrite !(proj2 (String.eqb_neq _ _)) by apply full_other. repeat split.
Qed.
Lemma van_normalised : forall p logp name fixed multi lower upper model kw, logp_ok logp -> not_observed kw \/ p = true ->
  absent ["lower"; "upper"]%string kw -> exists c s hs prior out sg sr frac,
    vaneylen19 p logp true name fixed multi lower upper model kw = Ok (c :: s :: hs ++ [Potential [name] "prior" prior], out) /\
    vaneylen_parameters p name fixed multi hs sg sr frac /\
    forall e w g r f, aget (sg e) w = Fin g -> aget (sr e) w = Fin r -> aget (frac e) w = Fin f -> 0 < g -> 0 < r -> 0 < f < 1 ->
      let d v := density_of (aget (prior (with_value e name v)) w) in
      (forall v, 0 <= v -> 0 < d v) /\ is_RInt_gen d (at_point 0) (Rbar_locally p_infty) 1 /\
      forall lo hi, 0 <= lo < hi -> is_RInt d lo hi (share f g r lo hi) /\ 0 < share f g r lo hi < 1.
Proof.
  intros p logp name fixed multi lower upper model kw L O N.
  destruct (van_mixture p logp name fixed multi lower upper model kw (fun e => e name) L (or_introl (conj O (fun e => eq_refl))) N)
    as (c & s & hs & prior & out & sg & sr & frac & E & P & M).
  exists c, s, hs, prior, out, sg, sr, frac. split; [exact E|]. split; [exact P|].
  intros e w g r f Eg Er Ef g0 r0 f0 d.
  assert (D : forall v, 0 <= v -> d v = mixture f g r v).
  { intros v Hv. unfold d. destruct (params_with _ _ _ _ _ _ _ _ e v P) as (Q1 & Q2 & Q3).
    rewrite (M (with_value e name v) w v g r f); try assumption; try (rewrite ?Q1, ?Q2, ?Q3; assumption).
    - cbn. apply exp_ln. apply mix_pos; assumption.
    - unfold with_value. rewrite String.eqb_refl. reflexivity. }
  assert (I : forall lo hi, 0 <= lo -> lo < hi -> is_RInt d lo hi (share f g r lo hi)).
  { intros lo hi h1 h2. apply (is_RInt_ext (mixture f g r)); [|apply mix_is; assumption]. intros x Hx. rewrite Rmin_left in Hx by lra. symmetry. apply D. lra. }
  split; [intros v Hv; rewrite D by exact Hv; apply mix_pos; assumption|]. split.
  - intros Q HQ. assert (W := share_limit f g r f0 g0 r0 Q HQ). unfold filtermap in W.
    apply (Filter_prod _ _ _ (fun a => a = 0) (fun b => Q (share f g r 0 b) /\ 0 < b)); [reflexivity| |].
    + apply filter_and; [exact W|]. exists 0. intros y Hy. exact Hy.
    + intros a b -> [Hb b0]. exists (share f g r 0 b). split; [apply I; [apply Rle_refl|exact b0]|exact Hb].
  - intros lo hi h. split; [apply I; lra|]. apply share_in; assumption.
Qed.
Lemma exp_le' a b : a <= b -> exp a <= exp b.
Proof. intros [h| ->]; [left; apply exp_increasing; exact h|right; reflexivity]. Qed.
Lemma share_wider f g g' r r' hi : 0 < f < 1 -> 0 < g <= g' -> 0 < r <= r' -> g < g' \/ r < r' -> 0 < hi -> share f g' r' 0 hi < share f g r 0 hi.
Proof.
  intros f0 g0 r0 W h. destruct s2 as [S1 S2].
  assert (V1 := share_value f g r ltac:(lra) ltac:(lra) hi). assert (V2 := share_value f g' r' ltac:(lra) ltac:(lra) hi).
  assert (Sp : 0 < sqrt PI) by (apply sqrt_lt_R0; apply PI_RGT_0). assert (k0 : 0 < 2 / sqrt PI) by (apply Rdiv_lt_0_compat; lra).
  assert (A : G (/ (sqrt 2 * g') * hi) <= G (/ (sqrt 2 * g) * hi) /\ (g < g' -> G (/ (sqrt 2 * g') * hi) < G (/ (sqrt 2 * g) * hi))).
  { set (u := / (sqrt 2 * g') * hi). set (v := / (sqrt 2 * g) * hi).
    assert (Ch := RInt_Chasles (V := R_CompleteNormedModule) bell 0 u v (bell_int _ _) (bell_int _ _)). assert (Ch' : G u + RInt bell u v = G v) by exact Ch.
    assert (Luv : u <= v). { unfold u, v. apply Rmult_le_compat_r; [lra|]. apply Rinv_le_contravar; nra. }
    split.
    - assert (0 <= RInt bell u v) by (apply RInt_ge_0; [exact Luv|apply bell_int|intros t _; left; apply exp_pos]). lra.
    - intro hg. assert (Luv' : u < v). { unfold u, v. apply Rmult_lt_compat_r; [lra|]. apply Rinv_lt_contravar; [|nra]. apply Rmult_lt_0_compat; nra. }
      assert (0 < RInt bell u v) by (apply RInt_gt_0; [exact Luv'|intros t _; apply exp_pos|intros t _; apply bell_cont]). lra. }
  assert (B : exp (- (hi * hi) / (2 * (r * r))) <= exp (- (hi * hi) / (2 * (r' * r'))) /\ (r < r' -> exp (- (hi * hi) / (2 * (r * r))) < exp (- (hi * hi) / (2 * (r' * r'))))).
  { assert (h2 : 0 < hi * hi) by nra. assert (i0 : 0 < / (2 * (r * r))) by (apply Rinv_0_lt_compat; nra).
    assert (i1 : / (2 * (r' * r')) <= / (2 * (r * r))) by (apply Rinv_le_contravar; nra).
    split.
    - apply exp_le'. unfold Rdiv. nra.
    - intro hr. assert (i2 : / (2 * (r' * r')) < / (2 * (r * r))). { apply Rinv_lt_contravar; [apply Rmult_lt_0_compat; nra|nra]. }
      apply exp_increasing. unfold Rdiv. nra. }
  destruct A as [A1 A2]. destruct B as [B1 B2]. unfold share in *.
  set (g1 := G _) in *. set (g2 := G (/ (sqrt 2 * g) * hi)) in *.
  assert (M : forall a b, a <= b -> 2 / sqrt PI * a <= 2 / sqrt PI * b) by (intros; apply Rmult_le_compat_l; lra).
  assert (M' : forall a b, a < b -> 2 / sqrt PI * a < 2 / sqrt PI * b) by (intros; apply Rmult_lt_compat_l; lra).
  fold (share f g r 0 hi) in *. fold (share f g' r' 0 hi) in *.
  destruct W as [W|W]; [assert (Q := M' _ _ (A2 W))|assert (Q := M _ _ A1); assert (Q' := B2 W)]; nra.
Qed.
Definition hyper p name (g r f : R) : env := fun n =>
  if String.eqb n (full_name p name "sigma_gauss") then alit (Fin g) else
  if String.eqb n (full_name p name "sigma_rayleigh") then alit (Fin r) else alit (Fin f).
Lemma append_inj a b c : (a ++ b)%string = (a ++ c)%string -> b = c.
Proof. induction a as [|ch a IH]; intro E; [exact E|]. cbn in E. injection E as E. exact (IH E). Qed.
Lemma full_inj p name n m : full_name p name n = full_name p name m -> n = m.
Proof. unfold full_name. intro E. apply append_inj in E. apply append_inj in E. exact E. Qed.
Lemma van_reweighted : forall p logp name multi model kw, logp_ok logp -> not_observed kw \/ p = true ->
  absent ["lower"; "upper"]%string kw -> exists c s hs prior out sg sr frac,
    vaneylen19 p logp true name false multi None None model kw = Ok (c :: s :: hs ++ [Potential [name] "prior" prior], out) /\
    vaneylen_parameters p name false multi hs sg sr frac /\
    ~ exists m, forall e w g r f, aget (sg e) w = Fin g -> aget (sr e) w = Fin r -> aget (frac e) w = Fin f -> 0 < g -> 0 < r -> 0 < f < 1 ->
        is_RInt (fun v => density_of (aget (prior (with_value e name v)) w)) 0 1 m.
Proof.
  intros p logp name multi model kw L O N.
  destruct (van_normalised p logp name false multi None None model kw L O N) as (c & s & hs & prior & out & sg & sr & frac & E & P & M).
  exists c, s, hs, prior, out, sg, sr, frac. split; [exact E|]. split; [exact P|]. intros (m & H).
  assert (X : forall g r f, 0 < g -> 0 < r -> 0 < f < 1 -> m = share f g r 0 1).
  { intros g r f g0 r0 f0. unfold vaneylen_parameters in P. destruct (vaneylen_table multi) as [[[a1 a2] [b1 b2]] [c1 c2]]. destruct P as [P _].
    set (e := hyper p name g r f). destruct (P e) as (P1 & P2 & P3).
    assert (Q1 : aget (sg e) (fun _ => 0%nat) = Fin g) by (rewrite P1; unfold e, hyper; rewrite String.eqb_refl; reflexivity).
    assert (Q2 : aget (sr e) (fun _ => 0%nat) = Fin r).
    { rewrite P2; unfold e, hyper. rewrite (proj2 (String.eqb_neq _ _)) by (intro W; apply full_inj in W; discriminate W). rewrite String.eqb_refl. reflexivity. }
    assert (Q3 : aget (frac e) (fun _ => 0%nat) = Fin f).
    { rewrite P3; unfold e, hyper. rewrite !(proj2 (String.eqb_neq _ _)) by (intro W; apply full_inj in W; discriminate W). reflexivity. }
    assert (J := H e _ g r f Q1 Q2 Q3 g0 r0 f0). destruct (M e _ g r f Q1 Q2 Q3 g0 r0 f0) as (_ & _ & K). destruct (K 0 1 ltac:(lra)) as [K' _].
    apply (is_RInt_unique (V := R_CompleteNormedModule)) in J. apply (is_RInt_unique (V := R_CompleteNormedModule)) in K'. rewrite <- J. exact K'. }
  assert (A := X 1 1 (1 / 2) ltac:(lra) ltac:(lra) ltac:(lra)). assert (B := X 1 2 (1 / 2) ltac:(lra) ltac:(lra) ltac:(lra)).
  assert (C := share_wider (1 / 2) 1 1 1 2 1 ltac:(lra) ltac:(lra) ltac:(lra) ltac:(lra) ltac:(lra)). lra.
Qed.
Lemma norm_example : logp_ok ex_logp /\ not_observed ex_ekw /\ absent ["lower"; "upper"]%string ex_ekw.
Proof.
  split; [exact ex_logp_ok|]. split; [left; reflexivity|]. intros k I; cbn in I; repeat (destruct I as [<-|I]; [reflexivity|]); destruct I.
Qed.
