(** * The area of a disk in polar coordinates about another point *)
From Coq Require Import Reals Lra Lia Psatz.
From Coquelicot Require Import Coquelicot.
From Verif Require Import Num CoreOps Inst CoreFlux L_flux.
Open Scope R_scope.
Ltac eqR := match goal with |- @eq _ ?a ?b => change (@eq R a b) end.

(** ** a fundamental theorem that does not need derivatives at the end points *)
Lemma Rmax_form p x : Rmax p x = (p + x + Rabs (p - x)) / 2.
Proof. unfold Rmax, Rabs. destruct (Rle_dec p x), (Rcase_abs (p - x)); lra. Qed.
Lemma Rmin_form p x : Rmin p x = (p + x - Rabs (p - x)) / 2.
Proof. unfold Rmin, Rabs. destruct (Rle_dec p x), (Rcase_abs (p - x)); lra. Qed.
Lemma Rabs_diff_cont p x : continuous (fun x => Rabs (p - x)) x.
Proof.
  apply (continuous_comp (fun x => p - x) Rabs); [|apply continuous_Rabs].
  apply (ex_derive_continuous (fun x => p - x)). auto_derive. exact I.
Qed.
Lemma Rmax_cont p x : continuous (Rmax p) x.
Proof.
  apply (continuous_ext (fun x => (p + x) / 2 + Rabs (p - x) / 2)); [intro y; rewrite Rmax_form; eqR; field|].
  apply (continuous_plus (V := R_NormedModule) (fun x => (p + x) / 2) (fun x => Rabs (p - x) / 2)).
  - apply (ex_derive_continuous (fun x => (p + x) / 2)). auto_derive. exact I.
  - apply (continuous_mult (K := R_AbsRing) (fun x => Rabs (p - x)) (fun _ => / 2)); [apply Rabs_diff_cont|apply continuous_const].
Qed.
Lemma Rmin_cont p x : continuous (Rmin p) x.
Proof.
  apply (continuous_ext (fun x => (p + x) / 2 - Rabs (p - x) / 2)); [intro y; rewrite Rmin_form; eqR; field|].
  apply (continuous_minus (V := R_NormedModule) (fun x => (p + x) / 2) (fun x => Rabs (p - x) / 2)).
  - apply (ex_derive_continuous (fun x => (p + x) / 2)). auto_derive. exact I.
  - apply (continuous_mult (K := R_AbsRing) (fun x => Rabs (p - x)) (fun _ => / 2)); [apply Rabs_diff_cont|apply continuous_const].
Qed.
Lemma ftc_open (F f : R -> R) p q : p <= q -> (forall x, p < x < q -> is_derive F x (f x)) ->
  (forall x, p <= x <= q -> continuous F x) -> (forall x, p <= x <= q -> continuous f x) -> RInt f p q = F q - F p.
Proof.
  intros Hpq HD HF Hf. set (e := fun x => f (Rmax p (Rmin q x))).
  assert (Ce : forall x, continuous e x).
  { intro x. unfold e. apply (continuous_comp (fun x => Rmax p (Rmin q x)) f).
    - apply (continuous_comp (Rmin q) (Rmax p)); [apply Rmin_cont|apply Rmax_cont].
    - apply Hf. unfold Rmax, Rmin. destruct (Rle_dec q x), (Rle_dec p _); lra. }
  assert (Ee : forall x, p <= x <= q -> e x = f x).
  { intros x Hx. unfold e, Rmax, Rmin. destruct (Rle_dec q x); destruct (Rle_dec p _); try lra; f_equal; lra. }
  rewrite <- (RInt_ext e f). 2:{ intros x Hx. rewrite Rmin_left, Rmax_right in Hx by lra. apply Ee. lra. }
  assert (Ie : forall x y, ex_RInt e x y) by (intros; apply (ex_RInt_continuous (V := R_CompleteNormedModule)); intros; apply Ce).
  assert (DI : forall x, is_derive (fun x => RInt e p x) x (e x)).
  { intro x. apply (is_derive_RInt (V := R_CompleteNormedModule) e (fun x => RInt e p x) p x); [|apply Ce]. apply filter_forall. intro y. apply (RInt_correct (V := R_CompleteNormedModule)), Ie. }
  destruct (MVT_gen (fun x => F x - RInt e p x) p q (fun x => f x - e x)) as (c & Hc & E).
  - intros x Hx. rewrite Rmin_left, Rmax_right in Hx by lra. apply (is_derive_minus (V := R_NormedModule) F (fun x => RInt e p x)); [apply HD; lra|apply DI].
  - intros x Hx. rewrite Rmin_left, Rmax_right in Hx by lra. apply continuity_pt_filterlim. apply (continuous_minus (V := R_NormedModule) F (fun x => RInt e p x)); [apply HF; lra|].
    apply (ex_derive_continuous (fun x => RInt e p x)). eexists. apply DI.
  - rewrite Rmin_left, Rmax_right in Hc by lra. rewrite (Ee c Hc), Rminus_eq_0, Rmult_0_l in E. assert (Z : RInt e p p = 0) by apply (RInt_point (V := R_CompleteNormedModule)). lra.
Qed.

(** ** the part of a disk within distance s of a point *)
Definition lens (b r s : R) : R :=
  s * s * acos ((s * s + b * b - r * r) / (2 * s * b)) + r * r * acos ((b * b + r * r - s * s) / (2 * b * r)) - sqrt (4 * (b * b) * (s * s) - (s * s + b * b - r * r) * (s * s + b * b - r * r)) / 2.
Lemma acos_derive x : -1 < x < 1 -> is_derive acos x (- / sqrt (1 - x * x)).
Proof.
  intro H. apply is_derive_Reals. assert (D := derive_pt_acos x H). unfold derive_pt in D. destruct (derivable_pt_acos x H) as [l Hl]. cbn in D. subst l.
  replace (- / sqrt (1 - x * x)) with (-1 / sqrt (1 - x²)); [exact Hl|]. unfold Rsqr, Rdiv. ring.
Qed.
Section A.
Variables b r : R.
Hypothesis Hb : 0 < b.
Hypothesis Hr : 0 < r.
Let W2 s := 4 * (b * b) * (s * s) - (s * s + b * b - r * r) * (s * s + b * b - r * r).
Lemma W2_factor s : W2 s = ((b + r) * (b + r) - s * s) * (s * s - (b - r) * (b - r)).
Proof. unfold W2. ring. Qed.
Lemma W2_pos s : Rabs (b - r) < s < b + r -> 0 < W2 s.
Proof.
  intros [H1 H2]. rewrite W2_factor. assert (P := Rabs_pos (b - r)). apply Rmult_lt_0_compat; [assert (0 < (b + r - s) * (b + r + s)) by (apply Rmult_lt_0_compat; lra); lra|].
  assert (Rabs (b - r) * Rabs (b - r) = (b - r) * (b - r)) by (rewrite <- Rabs_mult; apply Rabs_pos_eq, Rle_0_sqr).
  assert (0 < (s - Rabs (b - r)) * (s + Rabs (b - r))) by (apply Rmult_lt_0_compat; lra). lra.
Qed.
Lemma lens_derive s : Rabs (b - r) < s < b + r -> is_derive (lens b r) s (hidden_angle b r s * s).
Proof.
  intros H. assert (P := Rabs_pos (b - r)). assert (Hs : 0 < s) by lra. assert (W := W2_pos s H). assert (SW := sqrt_lt_R0 _ W). assert (SS := sqrt_sqrt (W2 s) ltac:(lra)).
  rewrite (hidden_acos b r s Hb ltac:(lra) Hs).
  set (c := fun s => (s * s + b * b - r * r) / (2 * s * b)). set (d := fun s => (b * b + r * r - s * s) / (2 * b * r)).
  assert (Dn : 0 < 2 * s * b) by nra. assert (Dn' : 0 < 2 * b * r) by nra.
  assert (C2 : 1 - c s * c s = W2 s / (2 * s * b * (2 * s * b))) by (unfold c, W2; field; lra).
  assert (D2 : 1 - d s * d s = W2 s / (2 * b * r * (2 * b * r))) by (unfold d, W2; field; lra).
  assert (C3 : 0 < 1 - c s * c s) by (rewrite C2; apply Rdiv_lt_0_compat; nra). assert (D3 : 0 < 1 - d s * d s) by (rewrite D2; apply Rdiv_lt_0_compat; nra).
  assert (Bc : -1 < c s < 1) by (split; nra). assert (Bd : -1 < d s < 1) by (split; nra).
  assert (Sc : sqrt (1 - c s * c s) = sqrt (W2 s) / (2 * s * b)) by (rewrite C2, sqrt_div_alt, sqrt_square by nra; reflexivity).
  assert (Sd : sqrt (1 - d s * d s) = sqrt (W2 s) / (2 * b * r)) by (rewrite D2, sqrt_div_alt, sqrt_square by nra; reflexivity).
  assert (Dc : is_derive c s ((s * s - b * b + r * r) / (2 * b * (s * s)))) by (unfold c; auto_derive; [lra|field; lra]).
  assert (Dd : is_derive d s (- s / (b * r))) by (unfold d; auto_derive; [lra|field; lra]).
  assert (Ac := is_derive_comp acos c s _ _ (acos_derive _ Bc) Dc). assert (Ad := is_derive_comp acos d s _ _ (acos_derive _ Bd) Dd).
  assert (Dw : is_derive (fun s => sqrt (W2 s)) s (2 * s * (b * b + r * r - s * s) / sqrt (W2 s))).
  { unfold W2. auto_derive; [exact W|]. fold (W2 s). replace (4 * (b * b) * (s * s) + - ((s * s + b * b + - (r * r)) * (s * s + b * b + - (r * r)))) with (W2 s) by (unfold W2; ring). field. lra. }
  change (lens b r) with (fun s => s * s * acos (c s) + r * r * acos (d s) - sqrt (W2 s) / 2).
  assert (Q1 := is_derive_mult (fun s => s * s) (fun s => acos (c s)) s (2 * s) _ ltac:(auto_derive; [exact I|ring]) Ac ltac:(intros; apply Rmult_comm)).
  assert (Q2 := is_derive_scal (fun s => acos (d s)) s (r * r) _ Ad).
  assert (Q3 := is_derive_scal (fun s => sqrt (W2 s)) s (/ 2) _ Dw).
  assert (Q := is_derive_minus (V := R_NormedModule) _ _ s _ _ (is_derive_plus (V := R_NormedModule) _ _ s _ _ Q1 Q2) Q3).
  eapply is_derive_ext; [|eapply eq_rect; [exact Q|]].
  - intro y. unfold plus, minus, opp, mult. cbn. unfold plus, mult. cbn. unfold Rdiv. ring.
  - unfold minus, plus, opp, scal, mult. cbn. unfold mult, plus. cbn. rewrite Sc, Sd. fold (c s). field. repeat split; lra.
Qed.
Lemma lens_cont s : 0 < s -> continuous (lens b r) s.
Proof.
  intro Hs. unfold lens.
  apply (continuous_minus (V := R_NormedModule) (fun s => s * s * acos ((s * s + b * b - r * r) / (2 * s * b)) + r * r * acos ((b * b + r * r - s * s) / (2 * b * r))) (fun s => sqrt (4 * (b * b) * (s * s) - (s * s + b * b - r * r) * (s * s + b * b - r * r)) / 2)).
  - apply (continuous_plus (V := R_NormedModule) (fun s => s * s * acos ((s * s + b * b - r * r) / (2 * s * b))) (fun s => r * r * acos ((b * b + r * r - s * s) / (2 * b * r)))).
    + apply (continuous_mult (K := R_AbsRing) (fun s => s * s) (fun s => acos ((s * s + b * b - r * r) / (2 * s * b)))); [apply (ex_derive_continuous (fun s => s * s)); auto_derive; exact I|].
      apply (continuous_comp (fun s => (s * s + b * b - r * r) / (2 * s * b)) acos); [|apply acos_cont]. apply (ex_derive_continuous (fun s => (s * s + b * b - r * r) / (2 * s * b))). auto_derive. assert (0 < s * b) by nra. lra.
    + apply (continuous_mult (K := R_AbsRing) (fun _ => r * r) (fun s => acos ((b * b + r * r - s * s) / (2 * b * r)))); [apply continuous_const|].
      apply (continuous_comp (fun s => (b * b + r * r - s * s) / (2 * b * r)) acos); [|apply acos_cont]. apply (ex_derive_continuous (fun s => (b * b + r * r - s * s) / (2 * b * r))). auto_derive. exact I.
  - apply (continuous_mult (K := R_AbsRing) (fun s => sqrt (4 * (b * b) * (s * s) - (s * s + b * b - r * r) * (s * s + b * b - r * r))) (fun _ => / 2)); [|apply continuous_const].
    apply (continuous_comp (fun s => 4 * (b * b) * (s * s) - (s * s + b * b - r * r) * (s * s + b * b - r * r)) sqrt); [|apply continuous_sqrt].
    apply (ex_derive_continuous (fun s => 4 * (b * b) * (s * s) - (s * s + b * b - r * r) * (s * s + b * b - r * r))). auto_derive. exact I.
Qed.
End A.
Lemma hidden_cont b r rho : 0 < b -> 0 <= r -> 0 <= rho -> continuous (fun rho => hidden_angle b r rho * rho) rho.
Proof.
  intros Hb Hr Hrho. apply (continuous_ext (fun rho => 2 * PI * rho - 1 * visible_angle b r rho * rho)).
  { intro y. unfold visible_angle. eqR. ring. }
  apply (continuous_minus (V := R_NormedModule) (fun rho => 2 * PI * rho) (fun rho => 1 * visible_angle b r rho * rho)).
  - apply (ex_derive_continuous (fun rho => 2 * PI * rho)). auto_derive. exact I.
  - destruct (Rle_lt_or_eq_dec 0 rho Hrho) as [H|H].
    + apply (F_cont_pos (fun _ => 1) (fun _ => continuous_const 1 _) b r Hr rho Hb H).
    + subst rho. apply (F_cont_0 (fun _ => 1) (fun _ => continuous_const 1 _) b r).
Qed.
Lemma lens_cont0 b r : 0 < b -> 0 < r -> continuous (lens b r) 0.
Proof.
  intros Hb Hr. unfold lens.
  apply (continuous_minus (V := R_NormedModule) (fun s => s * s * acos ((s * s + b * b - r * r) / (2 * s * b)) + r * r * acos ((b * b + r * r - s * s) / (2 * b * r))) (fun s => sqrt (4 * (b * b) * (s * s) - (s * s + b * b - r * r) * (s * s + b * b - r * r)) / 2)).
  - apply (continuous_plus (V := R_NormedModule) (fun s => s * s * acos ((s * s + b * b - r * r) / (2 * s * b))) (fun s => r * r * acos ((b * b + r * r - s * s) / (2 * b * r)))).
    + apply continuity_pt_filterlim. intros eps He. assert (Hpi := PI_RGT_0). assert (D1 : 0 < eps / (2 * PI)) by (apply Rdiv_lt_0_compat; lra).
      exists (Rmin 1 (eps / (2 * PI))). split; [apply Rlt_gt, Rmin_glb_lt; lra|]. intros y [_ Hy]. cbn in *. unfold R_dist in *. rewrite Rminus_0_r in Hy.
      assert (M1 := Rmin_l 1 (eps / (2 * PI))). assert (M2 := Rmin_r 1 (eps / (2 * PI))).
      match goal with |- Rabs (y * y * acos ?c - _) < _ => assert (Q := acos_bound c); set (A := acos c) in * end. rewrite !Rmult_0_l, Rminus_0_r, !Rabs_mult, (Rabs_pos_eq A) by lra.
      assert (Yp := Rabs_pos y). assert (Rabs y * Rabs y <= Rabs y) by nra. assert (Rabs y * Rabs y * A <= Rabs y * PI) by (apply Rmult_le_compat; nra).
      assert (Rabs y * PI < eps / (2 * PI) * PI) by (apply Rmult_lt_compat_r; lra). replace (eps / (2 * PI) * PI) with (eps / 2) in * by (field; lra). lra.
    + apply (continuous_mult (K := R_AbsRing) (fun _ => r * r) (fun s => acos ((b * b + r * r - s * s) / (2 * b * r)))); [apply continuous_const|].
      apply (continuous_comp (fun s => (b * b + r * r - s * s) / (2 * b * r)) acos); [|apply acos_cont]. apply (ex_derive_continuous (fun s => (b * b + r * r - s * s) / (2 * b * r))). auto_derive. exact I.
  - apply (continuous_mult (K := R_AbsRing) (fun s => sqrt (4 * (b * b) * (s * s) - (s * s + b * b - r * r) * (s * s + b * b - r * r))) (fun _ => / 2)); [|apply continuous_const].
    apply (continuous_comp (fun s => 4 * (b * b) * (s * s) - (s * s + b * b - r * r) * (s * s + b * b - r * r)) sqrt); [|apply continuous_sqrt].
    apply (ex_derive_continuous (fun s => 4 * (b * b) * (s * s) - (s * s + b * b - r * r) * (s * s + b * b - r * r))). auto_derive. exact I.
Qed.
Lemma acos_frac_hi x y : 0 < y -> y <= x -> acos (x / y) = 0.
Proof. intros. apply acos_out1. apply (Rmult_le_reg_r y); [assumption|]. unfold Rdiv. rewrite Rmult_assoc, Rinv_l by lra. lra. Qed.
Lemma acos_frac_lo x y : 0 < y -> x <= - y -> acos (x / y) = PI.
Proof. intros. apply acos_outm1. apply (Rmult_le_reg_r y); [assumption|]. unfold Rdiv. rewrite Rmult_assoc, Rinv_l by lra. lra. Qed.
(** the star's centre is not covered *)
Lemma lens_outside b r s : 0 < r -> r <= b -> 0 <= s <= b - r -> lens b r s = 0.
Proof.
  intros Hr Hb Hs. unfold lens. assert (Dn' : 0 < 2 * b * r) by nra. rewrite (sqrt_neg_0 (4 * (b * b) * (s * s) - _)) by (assert (0 <= ((b - r) * (b - r) - s * s)) by nra; assert (0 <= (b + r) * (b + r) - s * s) by nra; assert (0 <= ((b + r) * (b + r) - s * s) * ((b - r) * (b - r) - s * s)) by (apply Rmult_le_pos; assumption); nra).
  rewrite (acos_frac_hi (b * b + r * r - s * s)) by nra. destruct (Rle_lt_or_eq_dec 0 s (proj1 Hs)) as [H|H].
  - rewrite acos_frac_hi by nra. lra.
  - subst s. lra.
Qed.
(** it is covered *)
Lemma lens_inside b r s : 0 < b -> b <= r -> 0 <= s <= r - b -> lens b r s = PI * (s * s).
Proof.
  intros Hb Hr Hs. unfold lens. assert (Dn' : 0 < 2 * b * r) by nra. rewrite (sqrt_neg_0 (4 * (b * b) * (s * s) - _)) by (assert (0 <= ((r - b) * (r - b) - s * s)) by nra; assert (0 <= (b + r) * (b + r) - s * s) by nra; assert (0 <= ((b + r) * (b + r) - s * s) * ((r - b) * (r - b) - s * s)) by (apply Rmult_le_pos; assumption); nra).
  rewrite (acos_frac_hi (b * b + r * r - s * s)) by nra. destruct (Rle_lt_or_eq_dec 0 s (proj1 Hs)) as [H|H].
  - rewrite acos_frac_lo by nra. lra.
  - subst s. lra.
Qed.
Lemma lens_whole b r s : 0 < b -> 0 < r -> b + r <= s -> lens b r s = PI * (r * r).
Proof.
  intros Hb Hr Hs. unfold lens. assert (Dn' : 0 < 2 * b * r) by nra. rewrite (sqrt_neg_0 (4 * (b * b) * (s * s) - _)) by (assert (0 <= (s * s - (b - r) * (b - r))) by nra; assert (0 <= s * s - (b + r) * (b + r)) by nra; assert (0 <= (s * s - (b + r) * (b + r)) * (s * s - (b - r) * (b - r))) by (apply Rmult_le_pos; assumption); nra).
  rewrite acos_frac_hi by nra. rewrite acos_frac_lo by nra. lra.
Qed.
Lemma hidden_int b r p q : 0 < b -> 0 <= r -> 0 <= p -> 0 <= q -> ex_RInt (fun rho => hidden_angle b r rho * rho) p q.
Proof.
  intros Hb Hr Hp Hq. apply (ex_RInt_continuous (V := R_CompleteNormedModule)). intros z Hz. apply hidden_cont; [assumption|assumption|]. assert (0 <= Rmin p q) by (apply Rmin_glb; assumption). lra.
Qed.
Lemma lens_cont_all b r s : 0 < b -> 0 < r -> 0 <= s -> continuous (lens b r) s.
Proof. intros Hb Hr Hs. destruct (Rle_lt_or_eq_dec 0 s Hs) as [H|H]; [apply lens_cont; assumption|subst s; apply lens_cont0; assumption]. Qed.
Lemma lens_area b r s : 0 < b -> 0 < r -> 0 <= s -> RInt (fun rho => hidden_angle b r rho * rho) 0 s = lens b r s.
Proof.
  intros Hb Hr Hs. set (h := fun rho => hidden_angle b r rho * rho). assert (Ih : forall p q, 0 <= p -> 0 <= q -> ex_RInt h p q) by (intros; apply hidden_int; lra).
  assert (L1 : forall s, 0 <= s <= Rabs (b - r) -> RInt h 0 s = lens b r s).
  { clear s Hs. intros s Hs. destruct (Rle_dec r b) as [H|H].
    - rewrite Rabs_pos_eq in Hs by lra. rewrite lens_outside by lra. rewrite (RInt_ext h (fun _ => 0)); [rewrite RInt_const; unfold scal; cbn; unfold mult; cbn; eqR; ring|].
      intros x Hx. rewrite Rmin_left, Rmax_right in Hx by lra. unfold h, hidden_angle. eqR. destruct (Rle_dec (x + b) r); [lra|]. destruct (Rle_dec r (Rabs (x - b))) as [H'|H']; [ring|]. exfalso. apply H'. rewrite Rabs_left1; lra.
    - rewrite Rabs_left1 in Hs by lra. rewrite lens_inside by lra. rewrite (RInt_ext h (fun x => 2 * PI * x)).
      + rewrite (ftc_open (fun x => PI * (x * x)) (fun x => 2 * PI * x)); [eqR; ring|lra| | |].
        * intros. auto_derive; [exact I|ring]. * intros. apply (ex_derive_continuous (fun x => PI * (x * x))). auto_derive. exact I. * intros. apply (ex_derive_continuous (fun x => 2 * PI * x)). auto_derive. exact I.
      + intros x Hx. rewrite Rmin_left, Rmax_right in Hx by lra. unfold h, hidden_angle. eqR. destruct (Rle_dec (x + b) r); [reflexivity|lra]. }
  assert (P := Rabs_pos (b - r)). assert (Q : Rabs (b - r) < b + r) by (apply Rabs_def1; lra).
  assert (L2 : forall s, Rabs (b - r) <= s <= b + r -> RInt h 0 s = lens b r s).
  { clear s Hs. intros s Hs. rewrite <- (RInt_Chasles (V := R_CompleteNormedModule) h 0 (Rabs (b - r)) s) by (apply Ih; lra). rewrite (L1 (Rabs (b - r))) by lra.
    rewrite (ftc_open (lens b r) h (Rabs (b - r)) s); [unfold plus; cbn; eqR; ring|lra| | |].
    - intros x Hx. apply lens_derive; lra. - intros x Hx. apply lens_cont_all; lra. - intros x Hx. apply hidden_cont; lra. }
  destruct (Rle_dec s (Rabs (b - r))) as [H|H]; [apply L1; lra|]. destruct (Rle_dec s (b + r)) as [H'|H']; [apply L2; lra|].
  rewrite <- (RInt_Chasles (V := R_CompleteNormedModule) h 0 (b + r) s) by (apply Ih; lra). rewrite (L2 (b + r)) by lra. rewrite !lens_whole by lra.
  rewrite (RInt_ext h (fun _ => 0)); [rewrite RInt_const; unfold scal, plus; cbn; unfold mult; cbn; eqR; ring|].
  intros x Hx. rewrite Rmin_left, Rmax_right in Hx by lra. unfold h, hidden_angle. eqR. destruct (Rle_dec (x + b) r); [lra|]. destruct (Rle_dec r (Rabs (x - b))) as [h'|h']; [ring|]. exfalso. apply h'. rewrite Rabs_pos_eq; lra.
Qed.
