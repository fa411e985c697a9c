(** * The hidden light changes steadily *)
From Coq Require Import Reals Lra Lia Psatz.
From Coquelicot Require Import Coquelicot.
From Verif Require Import Num Inst CoreFlux Spec_light L_real L_flux L_area L_depth.
Open Scope R_scope.

(** the hidden angle, described by the points of the disk *)
Lemma hidden_in b r rho : 0 <= b -> 0 <= r -> 0 <= rho -> 0 < hidden_angle b r rho ->
  let f := hidden_angle b r rho / 2 in 0 < f <= PI /\ rho * rho + b * b - 2 * rho * b * cos f <= r * r.
Proof.
  intros Hb Hr Hp H f. assert (Hpi := PI_RGT_0). unfold f, hidden_angle in *. clear f.
  destruct (Rle_dec (rho + b) r) as [h|h].
  - replace (2 * PI / 2) with PI by field. rewrite cos_PI. split; [lra|]. assert ((rho + b) * (rho + b) <= r * r) by (apply Rmult_le_compat; lra). lra.
  - destruct (Rle_dec r (Rabs (rho - b))) as [h'|h']; [lra|].
    assert (A : rho - b < r /\ - r < rho - b) by (apply Rabs_def2; lra). destruct A as [A1 A2].
    assert (P1 : 0 < b) by lra. assert (P2 : 0 < rho) by lra. assert (P3 : 0 < 2 * rho * b) by nra.
    set (z := (rho * rho + b * b - r * r) / (2 * rho * b)) in *. assert (B := acos_bound z).
    replace (2 * acos z / 2) with (acos z) by field. split; [lra|].
    rewrite cos_acos.
    + unfold z. right. field. lra.
    + unfold z. split; [apply Rmult_le_reg_r with (2 * rho * b)|apply Rmult_le_reg_r with (2 * rho * b)]; try exact P3; (replace ((rho * rho + b * b - r * r) / (2 * rho * b) * (2 * rho * b)) with (rho * rho + b * b - r * r) by (field; lra)); nra.
Qed.
Lemma hidden_out b r rho f : 0 <= b -> 0 <= r -> 0 <= rho -> 0 <= f <= PI -> rho * rho + b * b - 2 * rho * b * cos f <= r * r -> 2 * f <= hidden_angle b r rho.
Proof.
  intros Hb Hr Hp Hf H. assert (Hpi := PI_RGT_0). unfold hidden_angle. destruct (Rle_dec (rho + b) r) as [h|h]; [lra|].
  assert (C := COS_bound f).
  assert (P3 : 0 < rho * b).
  { destruct (Rle_lt_or_eq_dec 0 (rho * b)) as [q|q]; [nra|exact q|exfalso]. assert (r * r < (rho + b) * (rho + b)) by nra. assert (2 * rho * b * cos f = 0) by (replace (2 * rho * b * cos f) with (2 * (rho * b) * cos f) by ring; rewrite <- q; ring). nra. }
  assert (X : (rho * rho + b * b - r * r) / (2 * rho * b) <= cos f).
  { apply Rmult_le_reg_r with (2 * rho * b); [lra|]. replace ((rho * rho + b * b - r * r) / (2 * rho * b) * (2 * rho * b)) with (rho * rho + b * b - r * r) by (field; nra). lra. }
  assert (G : f <= acos ((rho * rho + b * b - r * r) / (2 * rho * b))).
  { rewrite <- (acos_cos f Hf) at 1. apply acos_anti. exact X. }
  destruct (Rle_dec r (Rabs (rho - b))) as [h'|h']; [|lra].
  assert (r * r <= (rho - b) * (rho - b)).
  { assert (Rabs (rho - b) * Rabs (rho - b) = (rho - b) * (rho - b)) by (rewrite <- Rabs_mult; apply Rabs_pos_eq, Rle_0_sqr). nra. }
  assert (cos f = 1) by nra. assert (f = 0); [|lra]. rewrite <- cos_0 in H1. apply cos_inj; lra.
Qed.
(** the disk about b' of radius r + |b - b'| holds the disk about b of radius r *)
Lemma hidden_shift b b' r rho : 0 <= b -> 0 <= b' -> 0 <= r -> 0 <= rho -> hidden_angle b r rho <= hidden_angle b' (r + Rabs (b - b')) rho.
Proof.
  intros Hb Hb' Hr Hp. destruct (Rle_lt_dec (hidden_angle b r rho) 0) as [h|h]; [apply Rle_trans with 0; [exact h|apply hidden_bounds]|].
  destruct (hidden_in b r rho Hb Hr Hp h) as [[F1 F2] I]. set (f := hidden_angle b r rho / 2) in *.
  replace (hidden_angle b r rho) with (2 * f) by (unfold f; field).
  assert (D := Rabs_pos (b - b')). apply hidden_out; try lra.
  assert (DD : Rabs (b - b') * Rabs (b - b') = (b - b') * (b - b')) by (rewrite <- Rabs_mult; apply Rabs_pos_eq, Rle_0_sqr).
  assert (SC := sin2_cos2' f). set (c := cos f) in *. set (s := sin f) in *. set (d := Rabs (b - b')) in *.
  assert (E1 : (rho * c - b) * (rho * c - b) + rho * s * (rho * s) <= r * r) by nra.
  assert (E2 : (rho * c - b) * (b - b') <= r * d).
  { assert (Q : Rabs ((rho * c - b) * (b - b')) <= r * d).
    { rewrite Rabs_mult. fold d. apply Rmult_le_compat_r; [exact D|]. assert (0 <= rho * s * (rho * s)) by apply Rle_0_sqr. apply Rabs_le. split; nra. }
    apply Rle_trans with (2 := Q). apply Rle_abs. }
  replace (rho * rho + b' * b' - 2 * rho * b' * c) with ((rho * c - b) * (rho * c - b) + rho * s * (rho * s) + 2 * ((rho * c - b) * (b - b')) + (b - b') * (b - b')).
  - nra.
  - assert (rho * rho * (s * s + c * c) = rho * rho) by (replace (s * s + c * c) with 1 by lra; ring). nra.
Qed.
Lemma hidden_near b b' r rho : 0 <= b -> 0 <= b' -> 0 < rho -> let d := Rabs (b - b') in d <= r ->
  Rabs (hidden_angle b r rho - hidden_angle b' r rho) <= hidden_angle b (r + d) rho - hidden_angle b (r - d) rho.
Proof.
  intros Hb Hb' Hp d Hd. assert (D : 0 <= d) by apply Rabs_pos. assert (D' : d = Rabs (b' - b)) by (unfold d; apply Rabs_minus_sym).
  assert (A := hidden_shift b' b r rho Hb' Hb ltac:(lra) ltac:(lra)). rewrite <- D' in A.
  assert (B := hidden_shift b b' (r - d) rho Hb Hb' ltac:(lra) ltac:(lra)). fold d in B. replace (r - d + d) with r in B by ring.
  assert (C1 := hidden_mono b (r - d) r rho Hb ltac:(lra) Hp). assert (C2 := hidden_mono b r (r + d) rho Hb ltac:(lra) Hp).
  apply Rabs_le. lra.
Qed.

Section G.
Variable g : R -> R.
Hypothesis gc : forall x, continuous g x.
Variable G : R.
Hypothesis gb : forall mu, 0 <= mu <= 1 -> Rabs (g mu) <= G.
Lemma G_pos : 0 <= G.
Proof. apply Rle_trans with (2 := gb 0 ltac:(lra)). apply Rabs_pos. Qed.
Lemma hidden_diff b b' r r' q Q : 0 <= b -> 0 <= b' -> 0 <= r -> 0 <= r' -> 0 <= q <= Q ->
  (forall rho, 0 < rho -> Rabs (hidden_angle b r rho - hidden_angle b' r' rho) <= hidden_angle b Q rho - hidden_angle b q rho) ->
  Rabs (hidden_flux g b r - hidden_flux g b' r') <= G * (PI * (Q * Q - q * q)).
Proof.
  intros Hb Hb' Hr Hr' Hq H. assert (HG := G_pos). unfold hidden_flux.
  assert (I1 := hidden_int1 g gc b r Hb Hr). assert (I2 := hidden_int1 g gc b' r' Hb' Hr').
  assert (BI : forall s t, 0 <= s <= t -> ex_RInt (fun rho => G * (band b Q rho - band b q rho)) s t).
  { intros s t Hs. apply (ex_RInt_scal (V := R_NormedModule) (fun rho => band b Q rho - band b q rho)). apply (ex_RInt_minus (V := R_NormedModule)); apply band_int; lra. }
  set (L := Rmax 1 (b + Q)). assert (L1 := Rmax_l 1 (b + Q)). assert (L2 := Rmax_r 1 (b + Q)). fold L in L1, L2.
  assert (U : RInt (fun rho => G * (band b Q rho - band b q rho)) 0 L = G * (PI * (Q * Q - q * q))).
  { apply is_RInt_unique. replace (G * (PI * (Q * Q - q * q))) with (scal G (minus (PI * (Q * Q)) (PI * (q * q)))) by (unfold scal, minus, plus, opp; cbn; unfold mult; cbn; ring).
    apply (is_RInt_scal (V := R_NormedModule) (fun rho => band b Q rho - band b q rho)). apply (is_RInt_minus (V := R_NormedModule)); apply band_area; lra. }
  assert (N : forall x, 0 < x -> 0 <= band b Q x - band b q x).
  { intros x Hx. unfold band. assert (M := hidden_mono b q Q x Hb Hq Hx). nra. }
  assert (U1 : RInt (fun rho => G * (band b Q rho - band b q rho)) 0 1 <= G * (PI * (Q * Q - q * q))).
  { assert (C := RInt_Chasles (V := R_CompleteNormedModule) (fun rho => G * (band b Q rho - band b q rho)) 0 1 L (BI 0 1 ltac:(lra)) (BI 1 L ltac:(lra))).
    assert (0 <= RInt (fun rho => G * (band b Q rho - band b q rho)) 1 L) by (apply RInt_ge_0; [lra|apply BI; lra|intros x Hx; apply Rmult_le_pos; [exact HG|apply N; lra]]).
    rewrite U in C.
    assert (C' : RInt (fun rho => G * (band b Q rho - band b q rho)) 0 1 + RInt (fun rho => G * (band b Q rho - band b q rho)) 1 L = G * (PI * (Q * Q - q * q))) by exact C. lra. }
  apply Rle_trans with (2 := U1).
  change (RInt (fun rho => g (mu_of rho) * band b r rho) 0 1 - RInt (fun rho => g (mu_of rho) * band b' r' rho) 0 1) with (minus (RInt (fun rho => g (mu_of rho) * band b r rho) 0 1) (RInt (fun rho => g (mu_of rho) * band b' r' rho) 0 1)).
  rewrite <- (RInt_minus (V := R_CompleteNormedModule)) by assumption.
  assert (P : forall x, 0 < x < 1 -> Rabs (minus (g (mu_of x) * band b r x) (g (mu_of x) * band b' r' x)) <= G * (band b Q x - band b q x)).
  { intros x Hx. unfold minus, plus, opp. cbn. replace (g (mu_of x) * band b r x + - (g (mu_of x) * band b' r' x)) with (g (mu_of x) * ((hidden_angle b r x - hidden_angle b' r' x) * x)) by (unfold band; ring).
    rewrite Rabs_mult. apply Rmult_le_compat; [apply Rabs_pos|apply Rabs_pos|apply gb, mu_bound; lra|].
    rewrite Rabs_mult, (Rabs_pos_eq x) by lra. unfold band. replace (hidden_angle b Q x * x - hidden_angle b q x * x) with ((hidden_angle b Q x - hidden_angle b q x) * x) by ring.
    apply Rmult_le_compat_r; [lra|apply H; lra]. }
  assert (I3 : ex_RInt (fun rho => minus (g (mu_of rho) * band b r rho) (g (mu_of rho) * band b' r' rho)) 0 1) by (apply (ex_RInt_minus (V := R_NormedModule)); assumption).
  apply Rabs_le. split.
  - apply Ropp_le_cancel. rewrite Ropp_involutive. 
    change (- RInt (fun x => minus (g (mu_of x) * band b r x) (g (mu_of x) * band b' r' x)) 0 1) with (opp (RInt (fun x => minus (g (mu_of x) * band b r x) (g (mu_of x) * band b' r' x)) 0 1)).
    rewrite <- (RInt_opp (V := R_CompleteNormedModule)) by exact I3.
    apply RInt_le; [lra|apply (ex_RInt_opp (V := R_NormedModule)); exact I3|apply BI; lra|].
    intros x Hx. apply Rle_trans with (2 := P x Hx). unfold opp. cbn. rewrite <- Rabs_Ropp. apply Rle_abs.
  - apply RInt_le; [lra|exact I3|apply BI; lra|]. intros x Hx. apply Rle_trans with (2 := P x Hx). apply Rle_abs.
Qed.
Lemma hidden_flux_abs b r : 0 <= b -> 0 <= r -> Rabs (hidden_flux g b r) <= G * (PI * (r * r)).
Proof.
  intros Hb Hr. assert (Z : hidden_flux g b 0 = 0).
  { unfold hidden_flux. rewrite (RInt_ext _ (fun _ => 0)); [rewrite RInt_const; unfold scal; cbn; unfold mult; cbn; ring|].
    intros x Hx. rewrite Rmin_left, Rmax_right in Hx by lra. unfold band. eqR. unfold hidden_angle. destruct (Rle_dec (x + b) 0); [lra|]. destruct (Rle_dec 0 (Rabs (x - b))) as [h|h]; [ring|]. exfalso. apply h, Rabs_pos. }
  assert (Z' : forall x, 0 < x -> hidden_angle b 0 x = 0).
  { intros x Hx. unfold hidden_angle. destruct (Rle_dec (x + b) 0); [lra|]. destruct (Rle_dec 0 (Rabs (x - b))) as [h|h]; [ring|]. exfalso. apply h, Rabs_pos. }
  assert (A := hidden_diff b b r 0 0 r Hb Hb Hr ltac:(lra) ltac:(lra)). rewrite Z in A. replace (r * r - 0 * 0) with (r * r) in A by ring. rewrite Rminus_0_r in A. apply A.
  intros x Hx. rewrite !Z' by exact Hx. rewrite Rminus_0_r, Rabs_pos_eq by apply hidden_bounds. lra.
Qed.
Lemma hidden_flux_lip b b' r : 0 <= b -> 0 <= b' -> 0 <= r -> Rabs (hidden_flux g b r - hidden_flux g b' r) <= 4 * PI * G * r * Rabs (b - b').
Proof.
  intros Hb Hb' Hr. assert (D := Rabs_pos (b - b')). assert (HG := G_pos). assert (Hpi := PI_RGT_0). destruct (Rle_dec (Rabs (b - b')) r) as [h|h].
  - replace (4 * PI * G * r * Rabs (b - b')) with (G * (PI * ((r + Rabs (b - b')) * (r + Rabs (b - b')) - (r - Rabs (b - b')) * (r - Rabs (b - b'))))) by ring.
    apply hidden_diff; try lra. intros x Hx. apply hidden_near; assumption.
  - assert (A := hidden_flux_abs b r Hb Hr). assert (B := hidden_flux_abs b' r Hb' Hr).
    apply Rle_trans with (G * (PI * (r * r)) + G * (PI * (r * r))).
    + apply Rle_trans with (Rabs (hidden_flux g b r) + Rabs (hidden_flux g b' r)); [|lra]. unfold Rminus. rewrite <- (Rabs_Ropp (hidden_flux g b' r)). apply Rabs_triang.
    + assert (0 <= G * PI * r) by (apply Rmult_le_pos; [nra|lra]). nra.
Qed.
Lemma hidden_flux_lip_r b r r' : 0 <= b -> 0 <= r -> 0 <= r' -> Rabs (hidden_flux g b r - hidden_flux g b r') <= PI * G * Rabs (r * r - r' * r').
Proof.
  assert (K : forall b r r', 0 <= b -> 0 <= r <= r' -> Rabs (hidden_flux g b r - hidden_flux g b r') <= PI * G * (r' * r' - r * r)).
  { clear b r r'. intros b r r' Hb Hr. replace (PI * G * (r' * r' - r * r)) with (G * (PI * (r' * r' - r * r))) by ring. apply hidden_diff; try lra.
    intros x Hx. assert (M := hidden_mono b r r' x Hb Hr Hx). apply Rabs_le. lra. }
  intros Hb Hr Hr'. destruct (Rle_dec r r') as [h|h].
  - rewrite (Rabs_minus_sym (r * r)), (Rabs_pos_eq (r' * r' - r * r)) by nra. apply K; lra.
  - rewrite Rabs_minus_sym, (Rabs_pos_eq (r * r - r' * r')) by nra. apply K; lra.
Qed.
End G.
