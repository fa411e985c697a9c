(** * How much light a disk hides *)
From Coq Require Import Reals Lra Lia Psatz.
From Coquelicot Require Import Coquelicot.
From Verif Require Import Num CoreOps Inst CoreFlux L_flux L_area.
Open Scope R_scope.

Lemma acos_anti x y : x <= y -> acos y <= acos x.
Proof.
  intro H. destruct (Rle_lt_or_eq_dec x y H) as [L|L]; [|subst; lra]. assert (B := acos_bound x). assert (B' := acos_bound y).
  destruct (Rle_dec 1 x) as [h|h]; [rewrite (acos_out1 y) by lra; lra|]. destruct (Rle_dec x (-1)) as [h'|h']; [rewrite (acos_outm1 x h'); lra|].
  apply acos_lt_cos; [exact B|]. rewrite cos_acos by lra. exact L.
Qed.
Lemma frac_le x y d d' : 0 < d -> 0 < d' -> x * d' <= y * d -> x / d <= y / d'.
Proof.
  intros Hd Hd' H. apply (Rmult_le_reg_r (d * d')); [apply Rmult_lt_0_compat; assumption|]. replace (x / d * (d * d')) with (x * d') by (field; lra). replace (y / d' * (d * d')) with (y * d) by (field; lra). exact H.
Qed.
Lemma hidden_zero r rho : 0 <= r -> 0 < rho -> hidden_angle 0 r rho = if Rle_dec rho r then 2 * PI else 0.
Proof.
  intros Hr Hp. unfold hidden_angle. rewrite Rplus_0_r, Rminus_0_r. destruct (Rle_dec rho r); [reflexivity|]. rewrite Rabs_pos_eq by lra. destruct (Rle_dec r rho); [reflexivity|lra].
Qed.
(** ** the hidden angle *)
Lemma hidden_mono b r r' rho : 0 <= b -> 0 <= r <= r' -> 0 < rho -> hidden_angle b r rho <= hidden_angle b r' rho.
Proof.
  intros Hb Hr Hp. assert (Hpi := PI_RGT_0). destruct (Rle_lt_or_eq_dec 0 b Hb) as [H|H].
  - rewrite !hidden_acos by lra. apply Rmult_le_compat_l; [lra|]. apply acos_anti. assert (0 < 2 * rho * b) by nra. apply frac_le; [lra|lra|]. apply Rmult_le_compat_r; [lra|]. nra.
  - subst b. rewrite !hidden_zero by lra. destruct (Rle_dec rho r), (Rle_dec rho r'); lra.
Qed.
Lemma hidden_cross b b' r rho : 0 <= b <= b' -> 0 <= r -> 0 < rho ->
  (rho * rho <= r * r + b * b' -> hidden_angle b' r rho <= hidden_angle b r rho) /\ (r * r + b * b' < rho * rho -> hidden_angle b r rho <= hidden_angle b' r rho).
Proof.
  intros Hb Hr Hp. destruct (Rle_lt_or_eq_dec 0 b (proj1 Hb)) as [H|H].
  - rewrite !hidden_acos by lra. assert (0 < 2 * rho * b) by nra. assert (0 < 2 * rho * b') by nra.
    assert (K : (rho * rho + b * b - r * r) * (2 * rho * b') - (rho * rho + b' * b' - r * r) * (2 * rho * b) = 2 * rho * (b' - b) * (rho * rho - (r * r + b * b'))) by ring.
    assert (0 <= 2 * rho * (b' - b)) by nra.
    split; intro C; (apply Rmult_le_compat_l; [lra|]); apply acos_anti, frac_le; try assumption.
    + assert (2 * rho * (b' - b) * (rho * rho - (r * r + b * b')) <= 0) by (assert (0 <= 2 * rho * (b' - b) * - (rho * rho - (r * r + b * b'))) by (apply Rmult_le_pos; lra); lra). lra.
    + assert (0 <= 2 * rho * (b' - b) * (rho * rho - (r * r + b * b'))) by (apply Rmult_le_pos; lra). lra.
  - subst b. rewrite hidden_zero by lra. assert (B := hidden_bounds b' r rho). rewrite Rmult_0_l, Rplus_0_r. destruct (Rle_dec rho r) as [L|L]; split; intro C; try lra; nra.
Qed.
Definition band (b r rho : R) : R := hidden_angle b r rho * rho.
Lemma band_pos b r rho : 0 <= rho -> 0 <= band b r rho.
Proof. intro H. apply Rmult_le_pos; [apply hidden_bounds|exact H]. Qed.
(** ** the area of the disk *)
Lemma zero_int p q : is_RInt (fun _ => 0) p q 0.
Proof. assert (Z := is_RInt_const (V := R_NormedModule) p q 0). unfold scal in Z. cbn in Z. unfold mult in Z. cbn in Z. rewrite Rmult_0_r in Z. exact Z. Qed.
Lemma band_zero_int r s : 0 <= r <= s -> is_RInt (band 0 r) 0 s (PI * (r * r)).
Proof.
  intro Hr. replace (PI * (r * r)) with (plus (PI * (r * r)) 0) by (unfold plus; cbn; ring). apply (is_RInt_Chasles (V := R_NormedModule)) with r.
  - apply (is_RInt_ext (fun x => 2 * PI * x)).
    + intros x Hx. rewrite Rmin_left, Rmax_right in Hx by lra. unfold band. rewrite hidden_zero by lra. destruct (Rle_dec x r); [reflexivity|lra].
    + replace (PI * (r * r)) with (minus (PI * (r * r)) (PI * (0 * 0))) by (unfold minus, plus, opp; cbn; ring).
      apply (is_RInt_derive (V := R_CompleteNormedModule) (fun x => PI * (x * x)) (fun x => 2 * PI * x)); intros.
      * auto_derive; [exact I|ring]. * apply (ex_derive_continuous (fun x => 2 * PI * x)). auto_derive. exact I.
  - apply (is_RInt_ext (fun _ => 0)).
    + intros x Hx. rewrite Rmin_left, Rmax_right in Hx by lra. unfold band. rewrite hidden_zero by lra. destruct (Rle_dec x r); [lra|eqR; ring].
    + apply zero_int.
Qed.
Lemma band_area b r s : 0 <= b -> 0 <= r -> b + r <= s -> is_RInt (band b r) 0 s (PI * (r * r)).
Proof.
  intros Hb Hr Hs. destruct (Rle_lt_or_eq_dec 0 b Hb) as [H|H]; [|subst b; apply band_zero_int; lra]. destruct (Rle_lt_or_eq_dec 0 r Hr) as [H'|H'].
  - rewrite <- (lens_whole b r s) by lra. rewrite <- (lens_area b r s) by lra. apply (RInt_correct (V := R_CompleteNormedModule)), hidden_int; lra.
  - subst r. apply (is_RInt_ext (fun _ => 0)).
    + intros x Hx. rewrite Rmin_left, Rmax_right in Hx by lra. unfold band, hidden_angle. eqR. destruct (Rle_dec (x + b) 0); [lra|]. destruct (Rle_dec 0 (Rabs (x - b))) as [h|h]; [ring|]. exfalso. apply h, Rabs_pos.
    + rewrite !Rmult_0_r. apply zero_int.
Qed.
Lemma band_int b r s t : 0 <= b -> 0 <= r -> 0 <= s -> s <= t -> ex_RInt (band b r) s t.
Proof.
  intros Hb Hr Hs Ht. set (L := Rmax t (b + r)). assert (L1 := Rmax_l t (b + r)). assert (L2 := Rmax_r t (b + r)). fold L in L1, L2.
  apply (ex_RInt_Chasles_2 (V := R_CompleteNormedModule) _ 0); [lra|]. apply (ex_RInt_Chasles_1 (V := R_CompleteNormedModule) _ 0 t L); [lra|]. eexists. apply band_area; lra.
Qed.
(** the part within distance s shrinks as the disk moves away *)
Lemma band_prefix b b' r s : 0 <= b <= b' -> 0 <= r -> 0 <= s -> RInt (band b' r) 0 s <= RInt (band b r) 0 s.
Proof.
  intros Hb Hr Hs. destruct (Rle_dec (s * s) (r * r + b * b')) as [H|H].
  - apply RInt_le; [lra|apply band_int; lra|apply band_int; lra|]. intros x Hx. apply Rmult_le_compat_r; [lra|]. apply (hidden_cross b b' r x Hb Hr); [lra|]. assert (x * x <= s * s) by (apply Rmult_le_compat; lra). lra.
  - set (L := Rmax s (b' + r)). assert (L1 := Rmax_l s (b' + r)). assert (L2 := Rmax_r s (b' + r)). fold L in L1, L2.
    assert (A : RInt (band b r) 0 L = PI * (r * r)) by (apply is_RInt_unique, band_area; lra). assert (A' : RInt (band b' r) 0 L = PI * (r * r)) by (apply is_RInt_unique, band_area; lra).
    rewrite <- (RInt_Chasles (V := R_CompleteNormedModule) _ 0 s L) in A by (apply band_int; lra). rewrite <- (RInt_Chasles (V := R_CompleteNormedModule) _ 0 s L) in A' by (apply band_int; lra).
    assert (C : RInt (band b r) s L <= RInt (band b' r) s L).
    { apply RInt_le; [lra|apply band_int; lra|apply band_int; lra|]. intros x Hx. apply Rmult_le_compat_r; [lra|]. apply (hidden_cross b b' r x Hb Hr); [lra|]. assert (s * s <= x * x) by (apply Rmult_le_compat; lra). lra. }
    assert (A2 : RInt (band b r) 0 s + RInt (band b r) s L = PI * (r * r)) by exact A. assert (A2' : RInt (band b' r) 0 s + RInt (band b' r) s L = PI * (r * r)) by exact A'. lra.
Qed.
(** ** the light that is hidden *)
Section G.
Variable g : R -> R.
Hypothesis gc : forall x, continuous g x.
Definition hidden_flux (b r : R) : R := RInt (fun rho => g (mu_of rho) * band b r rho) 0 1.
Lemma full_int : ex_RInt (fun rho => g (mu_of rho) * (2 * PI) * rho) 0 1.
Proof.
  apply (ex_RInt_continuous (V := R_CompleteNormedModule)). intros z _. apply (continuous_mult (K := R_AbsRing) (fun rho => g (mu_of rho) * (2 * PI)) (fun rho => rho)); [|apply continuous_id].
  apply (continuous_mult (K := R_AbsRing) (fun rho => g (mu_of rho)) (fun _ => 2 * PI)); [apply gmu_cont, gc|apply continuous_const].
Qed.
Lemma hidden_int1 b r : 0 <= b -> 0 <= r -> ex_RInt (fun rho => g (mu_of rho) * band b r rho) 0 1.
Proof.
  intros Hb Hr. apply (ex_RInt_ext (fun rho => minus (g (mu_of rho) * (2 * PI) * rho) (g (mu_of rho) * visible_angle b r rho * rho))).
  - intros x _. unfold band, visible_angle, minus, plus, opp. cbn. eqR. ring.
  - apply (ex_RInt_minus (V := R_NormedModule)); [apply full_int|apply flux_int; assumption].
Qed.
Lemma visible_hidden b r : 0 <= b -> 0 <= r -> visible_flux g b r = full_flux g - hidden_flux b r.
Proof.
  intros Hb Hr. unfold full_flux, hidden_flux, visible_flux. rewrite <- (RInt_minus (V := R_CompleteNormedModule) (fun rho => g (mu_of rho) * (2 * PI) * rho) (fun rho => g (mu_of rho) * band b r rho)); [|apply full_int|apply hidden_int1; assumption].
  apply RInt_ext. intros x _. unfold band, visible_angle, minus, plus, opp. cbn. eqR. ring.
Qed.
(** more is hidden by a larger disk *)
Lemma hidden_flux_radius b r r' : 0 <= b -> 0 <= r <= r' -> (forall mu, 0 <= mu <= 1 -> 0 <= g mu) -> hidden_flux b r <= hidden_flux b r'.
Proof.
  intros Hb Hr Hg. apply RInt_le; [lra|apply hidden_int1; lra|apply hidden_int1; lra|]. intros x Hx. apply Rmult_le_compat_l; [apply Hg, mu_bound; lra|]. apply Rmult_le_compat_r; [lra|]. apply hidden_mono; lra.
Qed.
(** less is hidden by a disk further from the centre *)
Lemma hidden_flux_distance b b' r : 0 <= b <= b' -> 0 <= r -> (forall mu, 0 <= mu <= 1 -> 0 <= g mu) -> (forall mu mu', 0 <= mu <= mu' -> mu' <= 1 -> g mu <= g mu') ->
  hidden_flux b' r <= hidden_flux b r.
Proof.
  intros Hb Hr Hg Hm. set (q := Rmin (sqrt (r * r + b * b')) 1). assert (N : 0 <= r * r + b * b') by nra. assert (SP := sqrt_pos (r * r + b * b')). assert (SS := sqrt_sqrt _ N).
  assert (Q : 0 <= q <= 1) by (unfold q, Rmin; destruct (Rle_dec _ _); lra).
  assert (Hq : forall x, 0 < x < 1 -> (x <= q /\ x * x <= r * r + b * b') \/ (q <= x /\ r * r + b * b' < x * x)).
  { intros x Hx. destruct (Rle_dec (x * x) (r * r + b * b')) as [h|h]; [left|right]; split; try lra; unfold q, Rmin; destruct (Rle_dec _ 1); try lra.
    - apply Rsqr_incr_0_var; [unfold Rsqr; lra|exact SP]. - apply Rlt_le, Rsqr_incrst_0; [unfold Rsqr; lra|exact SP|lra]. - exfalso. assert (1 < r * r + b * b') by nra. nra. }
  set (c := g (mu_of q)). assert (Hc : 0 <= c) by (apply Hg, mu_bound, Q).
  assert (Mu : forall x y, 0 <= x <= y -> y <= 1 -> mu_of y <= mu_of x) by (intros x y H H'; apply sqrt_le_1_alt; nra).
  assert (K : RInt (fun rho => c * (band b r rho - band b' r rho)) 0 1 <= RInt (fun rho => g (mu_of rho) * band b r rho - g (mu_of rho) * band b' r rho) 0 1).
  { apply RInt_le; [lra| | |].
    - apply (ex_RInt_scal (V := R_NormedModule) (fun rho => band b r rho - band b' r rho)). apply (ex_RInt_minus (V := R_NormedModule)); apply band_int; lra.
    - apply (ex_RInt_minus (V := R_NormedModule)); apply hidden_int1; lra.
    - intros x Hx. replace (g (mu_of x) * band b r x - g (mu_of x) * band b' r x) with (g (mu_of x) * (band b r x - band b' r x)) by ring.
      destruct (hidden_cross b b' r x Hb Hr (proj1 Hx)) as [C1 C2]. unfold band. destruct (Hq x Hx) as [[h1 h2]|[h1 h2]].
      + apply Rmult_le_compat_r; [assert (Z := C1 h2); apply (Rmult_le_compat_r x) in Z; lra|]. unfold c. apply Hm; [split; [apply mu_bound, Q|apply Mu; lra]|apply mu_bound; lra].
      + rewrite !(Rmult_comm _ (_ - _)). apply Rmult_le_compat_neg_l; [assert (Z := C2 h2); apply (Rmult_le_compat_r x) in Z; lra|]. unfold c. apply Hm; [split; [apply mu_bound; lra|apply Mu; lra]|apply mu_bound, Q]. }
  rewrite (RInt_scal (V := R_CompleteNormedModule) (fun rho => band b r rho - band b' r rho)) in K by (apply (ex_RInt_minus (V := R_NormedModule)); apply band_int; lra).
  rewrite (RInt_minus (V := R_CompleteNormedModule) (band b r) (band b' r)) in K by (apply band_int; lra).
  rewrite (RInt_minus (V := R_CompleteNormedModule) (fun rho => g (mu_of rho) * band b r rho)) in K by (apply hidden_int1; lra).
  fold (hidden_flux b r) (hidden_flux b' r) in K. assert (P := band_prefix b b' r 1 Hb Hr ltac:(lra)). 
  assert (0 <= c * (RInt (band b r) 0 1 - RInt (band b' r) 0 1)) by (apply Rmult_le_pos; lra).
  assert (K' : c * (RInt (band b r) 0 1 - RInt (band b' r) 0 1) <= hidden_flux b r - hidden_flux b' r) by exact K. lra.
Qed.
(** the light hidden is the area times the brightness behind the disk *)
Lemma hidden_flux_upper b r M : 0 <= b -> 0 <= r -> 0 <= M -> (forall rho, b - r <= rho <= b + r -> 0 <= rho <= 1 -> g (mu_of rho) <= M) -> hidden_flux b r <= M * (PI * (r * r)).
Proof.
  intros Hb Hr HM Hg. set (L := Rmax 1 (b + r)). assert (L1 := Rmax_l 1 (b + r)). assert (L2 := Rmax_r 1 (b + r)). fold L in L1, L2.
  apply Rle_trans with (M * RInt (band b r) 0 1).
  - rewrite <- (RInt_scal (V := R_CompleteNormedModule)) by (apply band_int; lra). apply RInt_le; [lra|apply hidden_int1; lra|apply (ex_RInt_scal (V := R_NormedModule)), band_int; lra|].
    intros x Hx. unfold scal. cbn. unfold mult. cbn. unfold band, hidden_angle. destruct (Rle_dec (x + b) r) as [h|h].
    + apply Rmult_le_compat_r; [assert (Hpi := PI_RGT_0); nra|]. apply Hg; lra.
    + destruct (Rle_dec r (Rabs (x - b))) as [h'|h']; [rewrite Rmult_0_l, !Rmult_0_r; lra|]. apply Rmult_le_compat_r; [match goal with |- context [acos ?z] => assert (B := acos_bound z) end; apply Rmult_le_pos; lra|].
      apply Hg; [|lra]. unfold Rabs in h'. destruct (Rcase_abs (x - b)); lra.
  - apply Rmult_le_compat_l; [exact HM|]. assert (A : RInt (band b r) 0 L = PI * (r * r)) by (apply is_RInt_unique, band_area; lra). rewrite <- (RInt_Chasles (V := R_CompleteNormedModule) _ 0 1 L) in A by (apply band_int; lra).
    assert (0 <= RInt (band b r) 1 L) by (apply RInt_ge_0; [lra|apply band_int; lra|intros; apply band_pos; lra]). assert (A2 : RInt (band b r) 0 1 + RInt (band b r) 1 L = PI * (r * r)) by exact A. lra.
Qed.
Lemma hidden_flux_lower b r m : 0 <= b -> 0 <= r -> b + r <= 1 -> (forall rho, b - r <= rho <= b + r -> 0 <= rho <= 1 -> m <= g (mu_of rho)) -> m * (PI * (r * r)) <= hidden_flux b r.
Proof.
  intros Hb Hr H1 Hg. assert (A : RInt (band b r) 0 1 = PI * (r * r)) by (apply is_RInt_unique, band_area; lra). rewrite <- A.
  rewrite <- (RInt_scal (V := R_CompleteNormedModule)) by (apply band_int; lra). apply RInt_le; [lra|apply (ex_RInt_scal (V := R_NormedModule)), band_int; lra|apply hidden_int1; lra|].
  intros x Hx. unfold scal. cbn. unfold mult. cbn. unfold band, hidden_angle. destruct (Rle_dec (x + b) r) as [h|h].
  + apply Rmult_le_compat_r; [assert (Hpi := PI_RGT_0); nra|]. apply Hg; lra.
  + destruct (Rle_dec r (Rabs (x - b))) as [h'|h']; [rewrite Rmult_0_l, !Rmult_0_r; lra|]. apply Rmult_le_compat_r; [match goal with |- context [acos ?z] => assert (B := acos_bound z) end; apply Rmult_le_pos; lra|].
    apply Hg; [|lra]. unfold Rabs in h'. destruct (Rcase_abs (x - b)); lra.
Qed.
End G.
