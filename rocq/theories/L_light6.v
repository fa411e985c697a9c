(** * Exactness and convergence of the exposure time quadrature *)
From Coq Require Import Reals List Bool Arith ZArith Lra Lia Psatz.
From Coquelicot Require Import Coquelicot.
From Verif Require Import Num CoreOps Inst M_units M_kepler M_limbdark Spec_light L_light5.
Import ListNotations.
Local Notation length := List.length.
Open Scope R_scope.

Lemma cubic_mean a0 a1 a2 a3 t e : 0 < e -> exposure_mean (cubic a0 a1 a2 a3) t e = cubic a0 a1 a2 a3 t + e * e / 12 * (a2 + 3 * a3 * t).
Proof.
  intro He. unfold exposure_mean.
  set (F := fun s => a0 * s + a1 * (s * s) / 2 + a2 * (s * s * s) / 3 + a3 * (s * s * s * s) / 4).
  assert (I : is_RInt (cubic a0 a1 a2 a3) (t - e / 2) (t + e / 2) (F (t + e / 2) - F (t - e / 2))).
  { apply (is_RInt_derive F (cubic a0 a1 a2 a3)).
    - intros x _. unfold F, cubic. auto_derive; [exact I|]. field.
    - intros x _. apply (ex_derive_continuous (cubic a0 a1 a2 a3)). unfold cubic. auto_derive. exact I. }
  rewrite (is_RInt_unique _ _ _ _ I). unfold F, cubic. field. lra.
Qed.

(** ** symmetric rules *)
Section Sym.
Variables (X c : nat -> R) (K : nat).
Hypothesis HS : 0 < sm c K.
Hypothesis cs : forall i, (i < K)%nat -> c (K - 1 - i)%nat = c i.
Hypothesis Xs : forall i, (i < K)%nat -> X (K - 1 - i)%nat = - X i.
Lemma odd_moment g : (forall x, g (- x) = - g x) -> sm (fun i => c i * g (X i)) K = 0.
Proof.
  intro Hg. assert (E := sm_rev (fun i => c i * g (X i)) K). rewrite (sm_ext _ (fun i => -1 * (c i * g (X i)))) in E.
  - rewrite sm_scal in E. lra.
  - intros i Hi. rewrite (cs i Hi), (Xs i Hi), Hg. ring.
Qed.
Lemma sym_cubic a0 a1 a2 a3 t e :
  sm (fun i => c i * cubic a0 a1 a2 a3 (t + e * X i)) K / sm c K =
  cubic a0 a1 a2 a3 t + e * e * (a2 + 3 * a3 * t) * (sm (fun i => c i * (X i * X i)) K / sm c K).
Proof.
  rewrite (sm_ext _ (fun i => cubic a0 a1 a2 a3 t * c i + (e * (a1 + 2 * a2 * t + 3 * a3 * t * t) * (c i * X i) + (e * e * (a2 + 3 * a3 * t) * (c i * (X i * X i)) + a3 * e * e * e * (c i * (X i * X i * X i)))))).
  2:{ intros i _. unfold cubic. ring. }
  rewrite !sm_plus, !sm_scal. rewrite (odd_moment (fun x => x)) by (intro; ring). rewrite (odd_moment (fun x => x * x * x)) by (intro; ring). field. lra.
Qed.
End Sym.

Lemma simp_moment M : (0 < M)%nat -> sm (fun i => simp (2 * M + 1) i * (ends (2 * M + 1) i * ends (2 * M + 1) i)) (2 * M + 1) = INR M / 2.
Proof.
  intro HM. rewrite (simp_sum (fun i => ends (2 * M + 1) i * ends (2 * M + 1) i) M HM). set (y := / (2 * INR M)).
  assert (P : 0 < INR M) by (apply lt_0_INR; lia).
  assert (E : forall i, ends (2 * M + 1) i = -1/2 + INR i * y).
  { intro i. unfold ends. destruct (Nat.eqb_spec (2 * M + 1) 1); [lia|]. replace (2 * M + 1 - 1)%nat with (2 * M)%nat by lia. rewrite mult_INR. cbn [INR]. unfold y. replace (1 + 1) with 2 by lra. unfold Rdiv. lra. }
  rewrite (sm_ext _ (fun p => 3 / 2 - (12 * INR p + 6) * y + y * y * (24 * INR p * INR p + 24 * INR p + 8))).
  2:{ intros p _. rewrite !E, !plus_INR, !mult_INR. cbn [INR]. field. }
  assert (G : forall m, sm (fun p => 3 / 2 - (12 * INR p + 6) * y + y * y * (24 * INR p * INR p + 24 * INR p + 8)) m = 3 / 2 * INR m - 6 * INR m * INR m * y + 8 * INR m * INR m * INR m * y * y).
  { induction m as [|m IH]; [rewrite sm_0; cbn [INR]; lra|]. rewrite sm_S, IH, S_INR. ring. }
  rewrite G. unfold y. field. lra.
Qed.

(** ** one point *)
Lemma half_left g L v a b : a <= b -> (forall x, continuous g x) -> (forall s, a < s < b -> Rabs (g s - v) <= L * (b - s)) -> Rabs (RInt g a b - (b - a) * v) <= L * ((b - a) * (b - a)) / 2.
Proof.
  intros Hab gc H.
  assert (I : forall q, is_RInt (fun s => v + q * (b - s)) a b ((b - a) * v + q * ((b - a) * (b - a)) / 2)).
  { intro q. evar (l : R). assert (D : is_RInt (fun s => v + q * (b - s)) a b l).
    { unfold l. apply (is_RInt_derive (fun s => v * s + q * (b * s - s * s / 2)) (fun s => v + q * (b - s))).
      - intros x _. auto_derive; [exact I|]. field.
      - intros x _. apply (ex_derive_continuous (fun s => v + q * (b - s))). auto_derive. exact I. }
    replace ((b - a) * v + q * ((b - a) * (b - a)) / 2) with l; [exact D|]. unfold l, minus, plus, opp. cbn. field. }
  assert (Ig : ex_RInt g a b) by (apply (ex_RInt_continuous (V := R_CompleteNormedModule)); intros; apply gc).
  assert (U : RInt g a b <= RInt (fun s => v + L * (b - s)) a b).
  { apply RInt_le; [exact Hab|exact Ig|eexists; apply I|]. intros x Hx. assert (A := H x Hx). apply Rabs_le_between in A. lra. }
  assert (U' : RInt (fun s => v + - L * (b - s)) a b <= RInt g a b).
  { apply RInt_le; [exact Hab|eexists; apply I|exact Ig|]. intros x Hx. assert (A := H x Hx). apply Rabs_le_between in A. lra. }
  rewrite (is_RInt_unique _ _ _ _ (I L)) in U. rewrite (is_RInt_unique _ _ _ _ (I (- L))) in U'. apply Rabs_le. lra.
Qed.
Lemma half_right g L v a b : a <= b -> (forall x, continuous g x) -> (forall s, a < s < b -> Rabs (g s - v) <= L * (s - a)) -> Rabs (RInt g a b - (b - a) * v) <= L * ((b - a) * (b - a)) / 2.
Proof.
  intros Hab gc H.
  assert (I : forall q, is_RInt (fun s => v + q * (s - a)) a b ((b - a) * v + q * ((b - a) * (b - a)) / 2)).
  { intro q. evar (l : R). assert (D : is_RInt (fun s => v + q * (s - a)) a b l).
    { unfold l. apply (is_RInt_derive (fun s => v * s + q * (s * s / 2 - a * s)) (fun s => v + q * (s - a))).
      - intros x _. auto_derive; [exact I|]. field.
      - intros x _. apply (ex_derive_continuous (fun s => v + q * (s - a))). auto_derive. exact I. }
    replace ((b - a) * v + q * ((b - a) * (b - a)) / 2) with l; [exact D|]. unfold l, minus, plus, opp. cbn. field. }
  assert (Ig : ex_RInt g a b) by (apply (ex_RInt_continuous (V := R_CompleteNormedModule)); intros; apply gc).
  assert (U : RInt g a b <= RInt (fun s => v + L * (s - a)) a b).
  { apply RInt_le; [exact Hab|exact Ig|eexists; apply I|]. intros x Hx. assert (A := H x Hx). apply Rabs_le_between in A. lra. }
  assert (U' : RInt (fun s => v + - L * (s - a)) a b <= RInt g a b).
  { apply RInt_le; [exact Hab|eexists; apply I|exact Ig|]. intros x Hx. assert (A := H x Hx). apply Rabs_le_between in A. lra. }
  rewrite (is_RInt_unique _ _ _ _ (I L)) in U. rewrite (is_RInt_unique _ _ _ _ (I (- L))) in U'. apply Rabs_le. lra.
Qed.

Section Lip.
Variables (g : R -> R) (L : R).
Hypothesis gl : forall x y, Rabs (g x - g y) <= L * Rabs (x - y).
Lemma L_nonneg : 0 <= L.
Proof. assert (H := gl 1 0). assert (P := Rabs_pos (g 1 - g 0)). rewrite (Rabs_pos_eq (1 - 0)) in H by lra. lra. Qed.
Lemma g_cont x : continuous g x.
Proof.
  apply (proj1 (continuity_pt_filterlim g x)). intros eps He. assert (LN := L_nonneg). exists (eps / (L + 1)). split; [apply Rdiv_lt_0_compat; lra|].
  intros y [_ Hy]. cbn in *. unfold R_dist in *. eapply Rle_lt_trans; [apply gl|].
  apply Rle_lt_trans with ((L + 1) * Rabs (y - x)); [assert (P := Rabs_pos (y - x)); nra|]. apply Rmult_lt_reg_r with (/ (L + 1)); [apply Rinv_0_lt_compat; lra|].
  replace ((L + 1) * Rabs (y - x) * / (L + 1)) with (Rabs (y - x)) by (field; lra). exact Hy.
Qed.
Lemma g_int a b : ex_RInt g a b.
Proof. apply (ex_RInt_continuous (V := R_CompleteNormedModule)). intros z _. apply g_cont. Qed.
Lemma chasles a b c : RInt g a c = RInt g a b + RInt g b c.
Proof. symmetry. apply (RInt_Chasles g a b c); apply g_int. Qed.
(** value at the right or the left end *)
Lemma at_right a b : a <= b -> Rabs (RInt g a b - (b - a) * g b) <= L * ((b - a) * (b - a)) / 2.
Proof. intro H. apply half_left; [exact H|exact g_cont|]. intros s Hs. eapply Rle_trans; [apply gl|]. rewrite Rabs_minus_sym, Rabs_pos_eq by lra. lra. Qed.
Lemma at_left a b : a <= b -> Rabs (RInt g a b - (b - a) * g a) <= L * ((b - a) * (b - a)) / 2.
Proof. intro H. apply half_right; [exact H|exact g_cont|]. intros s Hs. eapply Rle_trans; [apply gl|]. rewrite Rabs_pos_eq by lra. lra. Qed.
Lemma at_point a c b : a <= c <= b -> Rabs (RInt g a b - (b - a) * g c) <= L * ((c - a) * (c - a) + (b - c) * (b - c)) / 2.
Proof.
  intro H. rewrite (chasles a c b). assert (A := at_right a c ltac:(lra)). assert (B := at_left c b ltac:(lra)). apply Rabs_le_between in A, B. apply Rabs_le. lra.
Qed.
(** panels *)
Lemma panels A h (q : nat -> R) B m : (forall p, (p < m)%nat -> Rabs (RInt g (A + INR p * h) (A + INR p * h + h) - q p) <= B) ->
  Rabs (RInt g A (A + INR m * h) - sm q m) <= INR m * B.
Proof.
  induction m as [|m IH]; intro H.
  - cbn [INR]. rewrite Rmult_0_l, Rplus_0_r, RInt_point, sm_0, Rminus_0_r. unfold zero. cbn. rewrite Rabs_R0. lra.
  - rewrite S_INR, (chasles A (A + INR m * h)), sm_S. assert (I := IH (fun p Hp => H p (Nat.lt_lt_succ_r _ _ Hp))). assert (J := H m (Nat.lt_succ_diag_r m)).
    replace (A + (INR m + 1) * h) with (A + INR m * h + h) by ring. apply Rabs_le_between in I, J. apply Rabs_le. lra.
Qed.
End Lip.

Lemma clamp_lip f L t e : 0 < e -> lipschitz_during f L t e ->
  exists g, (forall x y, Rabs (g x - g y) <= L * Rabs (x - y)) /\ forall s, t - e / 2 <= s <= t + e / 2 -> g s = f s.
Proof.
  intros He H. exists (fun s => f (Rmax (t - e / 2) (Rmin (t + e / 2) s))).
  assert (C : forall s, t - e / 2 <= Rmax (t - e / 2) (Rmin (t + e / 2) s) <= t + e / 2) by (intro s; unfold Rmax, Rmin; repeat destruct (Rle_dec _ _); lra).
  assert (LN : 0 <= L).
  { assert (Q := H (t + e / 2) (t - e / 2) ltac:(lra) ltac:(lra)). assert (P := Rabs_pos (f (t + e / 2) - f (t - e / 2))). rewrite (Rabs_pos_eq (t + e / 2 - (t - e / 2))) in Q by lra. nra. }
  split.
  - intros x y. eapply Rle_trans; [apply H; apply C|]. apply Rmult_le_compat_l; [exact LN|].
    unfold Rmax, Rmin. repeat destruct (Rle_dec _ _); unfold Rabs; repeat destruct (Rcase_abs _); lra.
  - intros s Hs. f_equal. unfold Rmax, Rmin. repeat destruct (Rle_dec _ _); lra.
Qed.

Section Conv.
Variables (f : R -> R) (L t e : R) (K : nat).
Hypothesis He : 0 < e.
Hypothesis Hf : lipschitz_during f L t e.
Lemma mean_close g q m h B : (forall x y, Rabs (g x - g y) <= L * Rabs (x - y)) -> (forall s, t - e / 2 <= s <= t + e / 2 -> g s = f s) ->
  INR m * h = e -> (forall p, (p < m)%nat -> Rabs (RInt g (t - e / 2 + INR p * h) (t - e / 2 + INR p * h + h) - q p) <= B) ->
  Rabs (sm q m / e - exposure_mean f t e) <= INR m * B / e.
Proof.
  intros gl gf Hm HB. assert (P := panels g L gl (t - e / 2) h q B m HB). rewrite Hm in P. replace (t - e / 2 + e) with (t + e / 2) in P by lra.
  unfold exposure_mean. rewrite (RInt_ext f g). 2:{ intros x Hx. rewrite Rmin_left, Rmax_right in Hx by lra. symmetry. apply gf. lra. }
  replace (sm q m / e - RInt g (t - e / 2) (t + e / 2) / e) with (- ((RInt g (t - e / 2) (t + e / 2) - sm q m) / e)) by (field; lra).
  rewrite Rabs_Ropp. unfold Rdiv at 1. rewrite Rabs_mult, (Rabs_pos_eq (/ e)) by (left; apply Rinv_0_lt_compat; exact He).
  apply Rmult_le_compat_r; [left; apply Rinv_0_lt_compat; exact He|exact P].
Qed.
Lemma mids_val i : mids K i = -1/2 + (2 * INR i + 1) / (2 * INR K). Proof. unfold mids. lra. Qed.
Lemma conv0 : (0 < K)%nat -> Rabs (sm (fun i => ones i * f (t + e * mids K i)) K / sm ones K - exposure_mean f t e) <= L * e / (4 * INR K).
Proof.
  intro HK. assert (PK : 0 < INR K) by (apply lt_0_INR; lia). destruct (clamp_lip f L t e He Hf) as (g & gl & gf).
  assert (M := mean_close g (fun i => e / INR K * f (t + e * mids K i)) K (e / INR K) (L * (e / INR K * (e / INR K)) / 4) gl gf).
  replace (sm (fun i => ones i * f (t + e * mids K i)) K / sm ones K) with (sm (fun i => e / INR K * f (t + e * mids K i)) K / e).
  2:{ rewrite sm_scal, (sm_ext (fun i => ones i * f (t + e * mids K i)) (fun i => f (t + e * mids K i))) by (intros; unfold ones; lra). unfold ones. rewrite sm_const. field. lra. }
  replace (L * e / (4 * INR K)) with (INR K * (L * (e / INR K * (e / INR K)) / 4) / e) by (field; lra). apply M; [field; lra|].
  intros p Hp. assert (Hpk : INR p + 1 <= INR K) by (rewrite <- S_INR; apply le_INR; lia). assert (Pp := pos_INR p).
  set (h := e / INR K). assert (Hh : 0 < h) by (apply Rdiv_lt_0_compat; lra). assert (eh : e = INR K * h) by (unfold h; field; lra).
  assert (C : t + e * mids K p = t - e / 2 + INR p * h + h / 2) by (rewrite mids_val; unfold h; field; lra).
  assert (Q : (INR p + 1) * h <= e) by (rewrite eh; apply Rmult_le_compat_r; lra). assert (Q' : 0 <= INR p * h) by (apply Rmult_le_pos; lra).
  rewrite <- (gf (t + e * mids K p)) by (rewrite C; lra). rewrite C.
  assert (A := at_point g L gl (t - e / 2 + INR p * h) (t - e / 2 + INR p * h + h / 2) (t - e / 2 + INR p * h + h) ltac:(lra)).
  replace (t - e / 2 + INR p * h + h - (t - e / 2 + INR p * h)) with h in A by ring. eapply Rle_trans; [exact A|]. right. field.
Qed.
Lemma ends_val M i : (0 < M)%nat -> ends (S M) i = -1/2 + INR i / INR M.
Proof. intro HM. unfold ends. destruct (Nat.eqb_spec (S M) 1); [lia|]. replace (S M - 1)%nat with M by lia. lra. Qed.
Lemma conv1 M : (0 < M)%nat -> Rabs (sm (fun i => trap (S M) i * f (t + e * ends (S M) i)) (S M) / sm (trap (S M)) (S M) - exposure_mean f t e) <= L * e / (4 * INR M).
Proof.
  intro HM. assert (PM : 0 < INR M) by (apply lt_0_INR; lia). destruct (clamp_lip f L t e He Hf) as (g & gl & gf).
  rewrite (trap_sum (fun i => f (t + e * ends (S M) i)) M HM), (trap_total M HM). set (h := e / INR M). assert (Hh : 0 < h) by (apply Rdiv_lt_0_compat; lra). assert (eh : e = INR M * h) by (unfold h; field; lra).
  assert (Mc := mean_close g (fun p => h / 2 * (f (t + e * ends (S M) p) + f (t + e * ends (S M) (S p)))) M h (L * (h * h) / 4) gl gf ltac:(lra)).
  rewrite sm_scal in Mc. replace (sm (fun p => f (t + e * ends (S M) p) + f (t + e * ends (S M) (S p))) M / (2 * INR M)) with (h / 2 * sm (fun p => f (t + e * ends (S M) p) + f (t + e * ends (S M) (S p))) M / e) by (unfold h; field; lra).
  replace (L * e / (4 * INR M)) with (INR M * (L * (h * h) / 4) / e) by (unfold h; field; lra). apply Mc.
  intros p Hp. assert (Hpk : INR p + 1 <= INR M) by (rewrite <- S_INR; apply le_INR; lia). assert (Pp := pos_INR p).
  assert (C : t + e * ends (S M) p = t - e / 2 + INR p * h) by (rewrite (ends_val M) by exact HM; unfold h; field; lra).
  assert (C' : t + e * ends (S M) (S p) = t - e / 2 + INR p * h + h) by (rewrite (ends_val M), S_INR by exact HM; unfold h; field; lra).
  assert (Q : (INR p + 1) * h <= e) by (rewrite eh; apply Rmult_le_compat_r; lra). assert (Q' : 0 <= INR p * h) by (apply Rmult_le_pos; lra).
  rewrite C, C', <- (gf (t - e / 2 + INR p * h)), <- (gf (t - e / 2 + INR p * h + h)) by lra. set (a := t - e / 2 + INR p * h).
  rewrite (chasles g L gl a (a + h / 2) (a + h)). assert (A1 := at_left g L gl a (a + h / 2) ltac:(lra)). assert (A2 := at_right g L gl (a + h / 2) (a + h) ltac:(lra)).
  replace (a + h / 2 - a) with (h / 2) in A1 by ring. replace (a + h - (a + h / 2)) with (h / 2) in A2 by field.
  apply Rabs_le_between in A1, A2. apply Rabs_le. split; nra.
Qed.
Lemma conv2 M : (0 < M)%nat -> Rabs (sm (fun i => simp (2 * M + 1) i * f (t + e * ends (2 * M + 1) i)) (2 * M + 1) / sm (simp (2 * M + 1)) (2 * M + 1) - exposure_mean f t e) <= 5 * L * e / (36 * INR M).
Proof.
  intro HM. assert (PM : 0 < INR M) by (apply lt_0_INR; lia). destruct (clamp_lip f L t e He Hf) as (g & gl & gf).
  rewrite (simp_sum (fun i => f (t + e * ends (2 * M + 1) i)) M HM), (simp_total M HM). set (h := e / INR M). assert (Hh : 0 < h) by (apply Rdiv_lt_0_compat; lra). assert (eh : e = INR M * h) by (unfold h; field; lra).
  set (q := fun p => f (t + e * ends (2 * M + 1) (2 * p)) + 4 * f (t + e * ends (2 * M + 1) (2 * p + 1)) + f (t + e * ends (2 * M + 1) (2 * p + 2))).
  assert (Mc := mean_close g (fun p => h / 6 * q p) M h (L * (5 * (h * h) / 36)) gl gf ltac:(lra)).
  rewrite sm_scal in Mc. replace (sm q M / (6 * INR M)) with (h / 6 * sm q M / e) by (unfold h; field; lra).
  replace (5 * L * e / (36 * INR M)) with (INR M * (L * (5 * (h * h) / 36)) / e) by (unfold h; field; lra). apply Mc.
  intros p Hp. assert (Hpk : INR p + 1 <= INR M) by (rewrite <- S_INR; apply le_INR; lia). assert (Pp := pos_INR p).
  assert (EV : forall i, t + e * ends (2 * M + 1) i = t - e / 2 + INR i * (h / 2)).
  { intro i. rewrite Nat.add_1_r, (ends_val (2 * M)) by lia. rewrite mult_INR. cbn [INR]. unfold h. field. lra. }
  assert (Q : (INR p + 1) * h <= e) by (rewrite eh; apply Rmult_le_compat_r; lra). assert (Q' : 0 <= INR p * h) by (apply Rmult_le_pos; lra).
  unfold q. rewrite !EV, !plus_INR, !mult_INR. cbn [INR].
  replace (t - e / 2 + (1 + 1) * INR p * (h / 2)) with (t - e / 2 + INR p * h) by field. replace (t - e / 2 + ((1 + 1) * INR p + 1) * (h / 2)) with (t - e / 2 + INR p * h + h / 2) by field.
  replace (t - e / 2 + ((1 + 1) * INR p + (1 + 1)) * (h / 2)) with (t - e / 2 + INR p * h + h) by field.
  rewrite <- (gf (t - e / 2 + INR p * h)), <- (gf (t - e / 2 + INR p * h + h / 2)), <- (gf (t - e / 2 + INR p * h + h)) by lra. set (a := t - e / 2 + INR p * h).
  rewrite (chasles g L gl a (a + h / 6) (a + h)), (chasles g L gl (a + h / 6) (a + 5 * h / 6) (a + h)).
  assert (A1 := at_left g L gl a (a + h / 6) ltac:(lra)). assert (A2 := at_point g L gl (a + h / 6) (a + h / 2) (a + 5 * h / 6) ltac:(lra)). assert (A3 := at_right g L gl (a + 5 * h / 6) (a + h) ltac:(lra)).
  replace (a + h / 6 - a) with (h / 6) in A1 by ring. replace (a + h - (a + 5 * h / 6)) with (h / 6) in A3 by field.
  replace (a + h / 2 - (a + h / 6)) with (h / 3) in A2 by field. replace (a + 5 * h / 6 - (a + h / 2)) with (h / 3) in A2 by field. replace (a + 5 * h / 6 - (a + h / 6)) with (4 * (h / 6)) in A2 by field.
  apply Rabs_le_between in A1, A2, A3. apply Rabs_le. split; nra.
Qed.
End Conv.
