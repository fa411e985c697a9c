(** * Convergent parameters of a SimpleTransitOrbit *)
From Coq Require Import Reals Lra Lia Psatz List Bool Arith ZArith.
From Coquelicot Require Import Coquelicot.
From Verif Require Import Num CoreOps Inst CoreFlux M_units M_kepler M_fin M_tensor M_limbdark M_simple Spec_orbit Spec_params Spec_array Spec_light Spec_simple Spec_depth Spec_delay Spec_lip Spec_cont Spec_cont2
  L_real L_flux L_area L_depth L_lip L_light1 L_light4 L_light7 L_light8 L_depth2 L_depth3 L_lip2 L_simple L_simple2 L_cont L_cont2 L_cont3 L_cont4.
Import ListNotations.
Local Notation length := List.length.
Open Scope R_scope.

(** light curves of any orbits whose fluxes converge at every moment *)
Lemma curves_tend u1s u1 u2s u2 n A A' ld P P' rst rst' r rs r' rs' N t ts t' ts' texp es texp' es' osam order :
  disk_flux u1 u2 <> 0 -> (forall q, disk_flux (u1s q) (u2s q) <> 0) ->
  (forall q, answers (A q) ld n (P q) /\ planet_numbers n (oa_r_star (A q)) (rst q) /\ forall j, (j < n)%nat -> 0 < rst q j) ->
  answers A' ld n P' -> planet_numbers n (oa_r_star A') rst' -> (forall j, (j < n)%nat -> 0 < rst' j) ->
  (forall q, elements n (r q) (rs q)) -> elements n r' rs' ->
  (forall q, is_vector N (t q) /\ forall m, (m < N)%nat -> aget (t q) (at_time m) = Fin (ts q m)) -> is_vector N t' -> (forall m, (m < N)%nat -> aget t' (at_time m) = Fin (ts' m)) ->
  (forall q, opt_exposures N (texp q) (es q) /\ is_none (texp q) = is_none texp') -> opt_exposures N texp' es' ->
  (texp' <> None -> exists nodes weights, stencil osam order = Ok (nodes, weights)) ->
  (forall m j y, (m < N)%nat -> (j < n)%nat -> (texp' = None -> y = 0) -> (forall nodes weights, stencil osam order = Ok (nodes, weights) -> texp' <> None -> In y nodes) ->
     Un_cv (fun q => flux_at (u1s q) (u2s q) (P q j (ts q m + es q m * y)) (rs q j) (rst q j)) (flux_at u1 u2 (P' j (ts' m + es' m * y)) (rs' j) (rst' j))) ->
  tables_tend n N (fun q => get_light_curve (ld_init (Fin (u1s q)) (Fin (u2s q))) (Some (A q)) (Some (r q)) (Some (t q)) (texp q) osam order (Some false) ld)
    (get_light_curve (ld_init (Fin u1) (Fin u2)) (Some A') (Some r') (Some t') texp' osam order (Some false) ld).
Proof.
  intros Hd Hds HA HA' Hs' Hp' Hr Hr' Ht Ht' Hts' He He' Hst Flux.
  assert (Curve : forall q, exists B f, get_light_curve (ld_init (Fin (u1s q)) (Fin (u2s q))) (Some (A q)) (Some (r q)) (Some (t q)) (texp q) osam order (Some false) ld = Ok B /\ light_table n N B f /\
    match texp q with
    | None => forall m j, f m j = flux_at (u1s q) (u2s q) (P q j (ts q m)) (rs q j) (rst q j)
    | Some _ => exists nodes weights, stencil osam order = Ok (nodes, weights) /\ forall m j, f m j = node_mean nodes weights (fun s => flux_at (u1s q) (u2s q) (P q j s) (rs q j) (rst q j)) (ts q m) (es q m)
    end).
  { intro q. destruct (HA q) as (HAq & Hsq & Hpq). destruct (Ht q) as [Ht1 Ht2]. destruct (He q) as [He1 He2].
    apply (curve_of (u1s q) (u2s q) _ ld n _ _ (r q) (rs q) N (t q) (ts q) (texp q) (es q) osam order (Hds q) HAq Hsq); try assumption; [apply Hr|].
    intro Z. apply Hst. intro Z'. apply Z. rewrite Z' in He2. destruct (texp q); [discriminate|reflexivity]. }
  destruct (curve_of u1 u2 _ ld n _ _ r' rs' N t' ts' texp' es' osam order Hd HA' Hs' Hp' Hr' Ht' Hts' He' Hst) as (B' & f & EA & TA & F).
  destruct texp' as [e|].
  - destruct (Hst ltac:(discriminate)) as (nodes & weights & St).
    exists (fun q m j => node_mean nodes weights (fun s => flux_at (u1s q) (u2s q) (P q j s) (rs q j) (rst q j)) (ts q m) (es q m)),
      (fun m j => node_mean nodes weights (fun s => flux_at u1 u2 (P' j s) (rs' j) (rst' j)) (ts' m) (es' m)). split; [|split].
    + intro q. destruct (Curve q) as (B & g & EB & TB & G). destruct (He q) as [_ He2]. destruct (texp q); [|discriminate]. exists B. split; [exact EB|].
      destruct G as (nodes' & weights' & St' & G). rewrite St in St'. injection St' as <- <-. destruct TB as [S1 V]. split; [exact S1|]. intros m j Hm Hj. rewrite V by assumption. rewrite G. reflexivity.
    + exists B'. split; [exact EA|]. destruct F as (nodes' & weights' & St' & F). rewrite St in St'. injection St' as <- <-. destruct TA as [S1 V]. split; [exact S1|]. intros m j Hm Hj. rewrite V by assumption. rewrite F. reflexivity.
    + intros m j Hm Hj.
      assert (Q : forall l w, (forall y, In y l -> In y nodes) -> Un_cv (fun q => node_mean l w (fun s => flux_at (u1s q) (u2s q) (P q j s) (rs q j) (rst q j)) (ts q m) (es q m)) (node_mean l w (fun s => flux_at u1 u2 (P' j s) (rs' j) (rst' j)) (ts' m) (es' m))).
      { intros l. unfold node_mean. induction l as [|y l IH]; intros [|w ws] In_; cbn [combine map fold_right]; try apply cv_const.
        apply CV_plus; [|apply IH; intros z Hz; apply In_; right; exact Hz]. apply CV_mult; [apply cv_const|]. apply Flux; try assumption; [discriminate|].
        intros n2 w2 E2 _. rewrite St in E2. injection E2 as <- <-. apply In_. left. reflexivity. }
      apply Q. auto.
  - exists (fun q m j => flux_at (u1s q) (u2s q) (P q j (ts q m)) (rs q j) (rst q j)), (fun m j => flux_at u1 u2 (P' j (ts' m)) (rs' j) (rst' j)). split; [|split].
    + intro q. destruct (Curve q) as (B & g & EB & TB & G). destruct (He q) as [_ He2]. destruct (texp q); [discriminate|]. exists B. split; [exact EB|].
      destruct TB as [S1 V]. split; [exact S1|]. intros m j Hm Hj. rewrite V by assumption. rewrite G. reflexivity.
    + exists B'. split; [exact EA|]. destruct TA as [S1 V]. split; [exact S1|]. intros m j Hm Hj. rewrite V by assumption. rewrite F. reflexivity.
    + intros m j Hm Hj. assert (Q := Flux m j 0 Hm Hj ltac:(reflexivity) ltac:(intros ? ? _ Z; contradiction Z; reflexivity)). rewrite Rmult_0_r, Rplus_0_r in Q. eapply cv_ext; [|exact Q]. intro q. cbv beta. rewrite Rmult_0_r, Rplus_0_r. reflexivity.
Qed.

Lemma cv_lim u l l' : l = l' -> Un_cv u l -> Un_cv u l'.
Proof. intros <-. auto. Qed.
Lemma dflt_tends d us u : given_tends Un_cv us u -> Un_cv (fun n => dflt d (us n)) (dflt d u).
Proof.
  destruct u as [a|]; cbn.
  - intros (v & E & C). eapply cv_ext; [|exact C]. intro n. rewrite E. reflexivity.
  - intro E. eapply cv_ext; [|apply cv_const]. intro n. rewrite E. reflexivity.
Qed.

Lemma lt_yes a b : a < b -> Rltb a b = true. Proof. intro H. unfold Rltb. destruct (Rlt_dec a b); [reflexivity|contradiction]. Qed.
Lemma lt_no a b : b <= a -> Rltb a b = false. Proof. intro H. unfold Rltb. destruct (Rlt_dec a b); [lra|reflexivity]. Qed.

Section S.
Variables (xs : nat -> sargs R) (x : sargs R) (ts : nat -> R) (t : R).
Hypothesis AT : sargs_tend xs x.
Hypothesis oks : forall n, simple_ok (xs n).
Hypothesis ok : simple_ok x.
Hypothesis Ct : Un_cv ts t.
Notation P := (sa_period x).
Notation t0 := (dflt 0 (sa_t0 x)).
Lemma P_cv : Un_cv (fun n => sa_period (xs n)) P. Proof. exact (st_period _ _ AT). Qed.
Lemma D_cv : Un_cv (fun n => sa_duration (xs n)) (sa_duration x). Proof. exact (st_duration _ _ AT). Qed.
Lemma t0_cv : Un_cv (fun n => dflt 0 (sa_t0 (xs n))) t0. Proof. exact (dflt_tends 0 _ _ (st_t0 _ _ AT)). Qed.
Lemma b_cv : Un_cv (fun n => dflt 0 (sa_b (xs n))) (dflt 0 (sa_b x)). Proof. exact (dflt_tends 0 _ _ (st_b _ _ AT)). Qed.
Lemma rs_cv : Un_cv (fun n => dflt 1 (sa_r_star (xs n))) (dflt 1 (sa_r_star x)). Proof. exact (dflt_tends 1 _ _ (st_r_star _ _ AT)). Qed.
Lemma ror_cv : Un_cv (fun n => dflt 0 (sa_ror (xs n))) (dflt 0 (sa_ror x)). Proof. exact (dflt_tends 0 _ _ (st_ror _ _ AT)). Qed.
Lemma speed_cv : Un_cv (fun n => sspeed (xs n)) (sspeed x).
Proof.
  assert (C1 := D_cv). assert (C2 := b_cv). assert (C3 := rs_cv). assert (C4 := ror_cv). assert (D0 := so_duration _ ok). unfold sspeed. cv. lra.
Qed.
Lemma mid_cv q : Un_cv (fun n => ts n - smid (xs n) q) (t - smid x q).
Proof. assert (C1 := P_cv). assert (C2 := t0_cv). unfold smid. cv. Qed.

(** the distance from the nearest mid-transit *)
Lemma near_size (y : sargs R) s q : 0 < sa_period y -> sdt y s = s - smid y q -> Rabs (IZR q) <= Rabs (s - dflt 0 (sa_t0 y)) / sa_period y + 1.
Proof.
  intros HP E. destruct (sdt_near y s HP) as (q' & E' & B). assert (Q : Rabs (IZR q * sa_period y) <= Rabs (s - dflt 0 (sa_t0 y)) + sa_period y).
  { replace (IZR q * sa_period y) with ((s - dflt 0 (sa_t0 y)) + - sdt y s) by (rewrite E; unfold smid; ring). eapply Rle_trans; [apply Rabs_triang|]. rewrite Rabs_Ropp.
    assert (Rabs (sdt y s) <= sa_period y / 2) by (apply Rabs_le; lra). lra. }
  rewrite Rabs_mult, (Rabs_pos_eq (sa_period y)) in Q by lra.
  apply Rmult_le_reg_r with (sa_period y); [exact HP|]. replace ((Rabs (s - dflt 0 (sa_t0 y)) / sa_period y + 1) * sa_period y) with (Rabs (s - dflt 0 (sa_t0 y)) + sa_period y) by (field; lra). exact Q.
Qed.
Lemma mid_close (y z : sargs R) s u q : Rabs (s - smid y q) <= Rabs (u - smid z q) + (Rabs (s - u) + Rabs (dflt 0 (sa_t0 y) - dflt 0 (sa_t0 z)) + Rabs (IZR q) * Rabs (sa_period y - sa_period z)).
Proof.
  unfold smid. rewrite <- Rabs_mult.
  replace (s - (dflt 0 (sa_t0 y) + IZR q * sa_period y)) with ((u - (dflt 0 (sa_t0 z) + IZR q * sa_period z)) + ((s - u) - (dflt 0 (sa_t0 y) - dflt 0 (sa_t0 z)) - IZR q * (sa_period y - sa_period z))) by ring.
  eapply Rle_trans; [apply Rabs_triang|]. apply Rplus_le_compat_l. unfold Rminus at 1. eapply Rle_trans; [apply Rabs_triang|]. rewrite Rabs_Ropp. apply Rplus_le_compat_r.
  unfold Rminus at 1. eapply Rle_trans; [apply Rabs_triang|]. rewrite Rabs_Ropp. lra.
Qed.
Lemma dist_cv : Un_cv (fun n => Rabs (sdt (xs n) (ts n))) (Rabs (sdt x t)).
Proof.
  assert (C1 := P_cv). assert (C2 := t0_cv). assert (HP := so_period _ ok).
  apply Un_cv_squeeze with (d := fun n => Rabs (ts n - t) + Rabs (dflt 0 (sa_t0 (xs n)) - t0) + ((Rabs (t - t0) / P + 1) + (Rabs (ts n - dflt 0 (sa_t0 (xs n))) / sa_period (xs n) + 1)) * Rabs (sa_period (xs n) - P)).
  - intro n. assert (HPn := so_period _ (oks n)). destruct (sdt_near x t HP) as (q & E & _). destruct (sdt_near (xs n) (ts n) HPn) as (q' & E' & _).
    assert (L1 := sdt_le (xs n) (ts n) q HPn). assert (L2 := sdt_le x t q' HP).
    assert (M1 := mid_close (xs n) x (ts n) t q). assert (M2 := mid_close x (xs n) t (ts n) q').
    assert (S1 := near_size x t q HP E). assert (S2 := near_size (xs n) (ts n) q' HPn E').
    rewrite <- E in M1. rewrite <- E' in M2. rewrite (Rabs_minus_sym t (ts n)), (Rabs_minus_sym t0 _), (Rabs_minus_sym P _) in M2.
    set (d := Rabs (sa_period (xs n) - P)) in *. assert (d0 : 0 <= d) by apply Rabs_pos.
    set (k1 := Rabs (t - t0) / P + 1) in *. set (k2 := Rabs (ts n - dflt 0 (sa_t0 (xs n))) / sa_period (xs n) + 1) in *.
    assert (k10 : 0 <= k1) by (eapply Rle_trans; [apply Rabs_pos|exact S1]). assert (k20 : 0 <= k2) by (eapply Rle_trans; [apply Rabs_pos|exact S2]).
    assert (Rabs (IZR q) * d <= k1 * d) by (apply Rmult_le_compat_r; assumption). assert (Rabs (IZR q') * d <= k2 * d) by (apply Rmult_le_compat_r; assumption).
    assert (0 <= k1 * d) by (apply Rmult_le_pos; assumption). assert (0 <= k2 * d) by (apply Rmult_le_pos; assumption).
    apply Rabs_le. split; lra.
  - assert (Z1 := cv_zero _ _ Ct). assert (Z2 := cv_zero _ _ C2). assert (Z3 := cv_zero _ _ C1).
    assert (Z4 : Un_cv (fun n => Rabs (ts n - dflt 0 (sa_t0 (xs n)))) (Rabs (t - t0))) by (apply cv_abs; cv).
    apply (cv_lim _ (0 + 0 + ((Rabs (t - t0) / P + 1) + (Rabs (t - t0) / P + 1)) * 0)); [ring|]. cv; lra.
Qed.
(** the signed one, away from the half-way points *)
Lemma signed_cv : ~ half_way x t -> Un_cv (fun n => sdt (xs n) (ts n)) (sdt x t).
Proof.
  intro NH. assert (HP := so_period _ ok). destruct (sdt_near x t HP) as (q & E & B1 & B2).
  assert (B1' : - (P / 2) < sdt x t). { destruct B1 as [B1|B1]; [exact B1|]. exfalso. apply NH. exists (q - 1)%Z. unfold smid in *. rewrite minus_IZR. lra. }
  assert (C := mid_cv q). rewrite <- E in C. assert (CP := P_cv).
  destruct (cv_pos (fun n => sa_period (xs n) / 2 + (ts n - smid (xs n) q)) (P / 2 + sdt x t) ltac:(lra) ltac:(cv; lra)) as [N1 H1].
  destruct (cv_pos (fun n => sa_period (xs n) / 2 - (ts n - smid (xs n) q)) (P / 2 - sdt x t) ltac:(lra) ltac:(cv; lra)) as [N2 H2].
  apply cv_late with (u := fun n => ts n - smid (xs n) q) (N := max N1 N2); [|exact C]. intros n Hn. specialize (H1 n ltac:(lia)). specialize (H2 n ltac:(lia)). cbv beta in *.
  symmetry. replace (ts n) with (smid (xs n) q + (ts n - smid (xs n) q)) at 1 by ring. apply sdt_mid; [apply (so_period _ (oks n))|lra].
Qed.
Lemma y_cv : Un_cv (fun n => vy (spos (xs n) (ts n))) (vy (spos x t)).
Proof. assert (C1 := b_cv). assert (C2 := rs_cv). rewrite spos_eq. eapply cv_ext. { intro n. rewrite spos_eq. reflexivity. } unfold vy. cbn [fst snd]. cv. Qed.
Lemma x_cv : ~ half_way x t -> Un_cv (fun n => vx (spos (xs n) (ts n))) (vx (spos x t)).
Proof. intro NH. assert (C1 := signed_cv NH). assert (C2 := speed_cv). rewrite spos_eq. eapply cv_ext. { intro n. rewrite spos_eq. reflexivity. } unfold vx. cbn [fst snd]. cv. Qed.
Lemma absx_cv : Un_cv (fun n => Rabs (vx (spos (xs n) (ts n)))) (Rabs (vx (spos x t))).
Proof.
  assert (C1 := dist_cv). assert (C2 := cv_abs _ _ speed_cv). rewrite spos_eq. eapply cv_ext. { intro n. rewrite spos_eq. reflexivity. } unfold vx. cbn [fst snd].
  rewrite Rabs_mult. eapply cv_ext. { intro n. symmetry. apply Rabs_mult. } cv.
Qed.
Lemma apart_abs Q : apart Q = sqrt (Rabs (vx Q) * Rabs (vx Q) + vy Q * vy Q).
Proof. unfold apart. f_equal. f_equal. rewrite <- Rabs_mult. symmetry. apply Rabs_pos_eq. apply Rle_0_sqr. Qed.
Lemma apart_cv : Un_cv (fun n => apart (spos (xs n) (ts n))) (apart (spos x t)).
Proof. assert (C1 := absx_cv). assert (C2 := y_cv). rewrite apart_abs. eapply cv_ext. { intro n. symmetry. apply apart_abs. } cv. Qed.
Lemma z_late : Rabs (sdt x t) <> sa_duration x / 2 -> exists N, forall n, (N <= n)%nat -> vz (spos (xs n) (ts n)) = vz (spos x t).
Proof.
  intro H. assert (C1 := dist_cv). assert (C2 := D_cv). destruct (Rlt_le_dec (Rabs (sdt x t)) (sa_duration x / 2)) as [L|L].
  - destruct (cv_pos (fun n => sa_duration (xs n) / 2 - Rabs (sdt (xs n) (ts n))) (sa_duration x / 2 - Rabs (sdt x t)) ltac:(lra) ltac:(cv; lra)) as [N HN].
    exists N. intros n Hn. specialize (HN n Hn). rewrite !spos_eq. unfold vz. cbn [fst snd]. rewrite !lt_yes by lra. reflexivity.
  - destruct (cv_pos (fun n => Rabs (sdt (xs n) (ts n)) - sa_duration (xs n) / 2) (Rabs (sdt x t) - sa_duration x / 2) ltac:(lra) ltac:(cv; lra)) as [N HN].
    exists N. intros n Hn. specialize (HN n Hn). rewrite !spos_eq. unfold vz. cbn [fst snd]. rewrite !lt_no by lra. reflexivity.
Qed.
Lemma contact_dt : Rabs (sdt x t) = sa_duration x / 2 -> at_contact x t.
Proof. intro H. destruct (sdt_near x t (so_period _ ok)) as (q & E & _). exists q. rewrite <- E. exact H. Qed.
Lemma z_cv : ~ at_contact x t -> exists N, forall n, (N <= n)%nat -> vz (spos (xs n) (ts n)) = vz (spos x t).
Proof. intro H. apply z_late. intro E. apply H. apply contact_dt. exact E. Qed.
Lemma contact_apart : Rabs (sdt x t) = sa_duration x / 2 -> apart (spos x t) = dflt 1 (sa_r_star x) * (1 + dflt 0 (sa_ror x)).
Proof.
  intro H. assert (R0 := so_r_star _ ok). assert (B := so_b _ ok). assert (B0 := Rabs_pos (dflt 0 (sa_b x))). rewrite apart_abs, spos_eq. unfold vx, vy. cbn [fst snd].
  set (a := sspeed x * sdt x t). assert (E : Rabs a * Rabs a = dflt 1 (sa_r_star x) * dflt 1 (sa_r_star x) * ((1 + dflt 0 (sa_ror x)) * (1 + dflt 0 (sa_ror x)) - dflt 0 (sa_b x) * dflt 0 (sa_b x))).
  { unfold a. rewrite Rabs_mult, H, (Rabs_pos_eq (sspeed x)) by apply (sspeed_pos x ok). assert (Q := sspeed_sq x ok). 
    replace (sspeed x * (sa_duration x / 2) * (sspeed x * (sa_duration x / 2))) with (sspeed x * sspeed x * (sa_duration x * sa_duration x) / 4) by field. rewrite Q. field. }
  rewrite E. rewrite <- (sqrt_square (dflt 1 (sa_r_star x) * (1 + dflt 0 (sa_ror x)))) by (apply Rmult_le_pos; lra). f_equal. ring.
Qed.
Variables (u1s u2s : nat -> R) (u1 u2 : R) (rs : nat -> R) (r : R).
Hypothesis Hd : disk_flux u1 u2 <> 0.
Hypothesis Hds : forall n, disk_flux (u1s n) (u2s n) <> 0.
Hypothesis C1 : Un_cv u1s u1.
Hypothesis C2 : Un_cv u2s u2.
Hypothesis Cr : Un_cv rs r.
Hypothesis small_r : Rabs r <= dflt 0 (sa_ror x) * dflt 1 (sa_r_star x).
Definition seen n := rel_flux (u1s n) (u2s n) (apart (spos (xs n) (ts n)) / dflt 1 (sa_r_star (xs n))) (rs n / dflt 1 (sa_r_star (xs n))) 1.
Lemma rel_sign a1 a2 b' r' z : disk_flux a1 a2 <> 0 -> 0 < z -> rel_flux a1 a2 b' r' z = rel_flux a1 a2 b' r' 1.
Proof. intros H Hz. rewrite !rel_hidden by (assumption || lra). reflexivity. Qed.
Lemma seen_cv : Un_cv seen (rel_flux u1 u2 (apart (spos x t) / dflt 1 (sa_r_star x)) (r / dflt 1 (sa_r_star x)) 1).
Proof.
  assert (R0 := so_r_star _ ok). assert (A := apart_cv). assert (B := rs_cv). unfold seen.
  apply (rel_tends u1s u1 u2s u2 (fun n => apart (spos (xs n) (ts n)) / dflt 1 (sa_r_star (xs n))) _ (fun n => rs n / dflt 1 (sa_r_star (xs n))) _ (fun _ => 1)); try assumption; try (cv; lra); intros; lra.
Qed.
Lemma flux_seen y s a1 a2 r' : simple_ok y -> disk_flux a1 a2 <> 0 -> flux_at a1 a2 (spos y s) r' (dflt 1 (sa_r_star y)) =
  if Rltb (Rabs (sdt y s)) (0.5 * sa_duration y) then rel_flux a1 a2 (apart (spos y s) / dflt 1 (sa_r_star y)) (r' / dflt 1 (sa_r_star y)) 1 else 0.
Proof.
  intros oky H. assert (R0 := so_r_star _ oky). unfold flux_at. fold (apart (spos y s)). assert (Z : vz (spos y s) = if Rltb (Rabs (sdt y s)) (0.5 * sa_duration y) then 1 else - (1)) by (rewrite spos_eq; reflexivity).
  rewrite Z. destruct (Rltb _ _).
  - apply rel_sign; [exact H|]. apply Rdiv_lt_0_compat; lra.
  - apply rel_flux_out; [exact H|right]. apply Rmult_le_reg_r with (dflt 1 (sa_r_star y)); [exact R0|]. replace (- (1) / dflt 1 (sa_r_star y) * dflt 1 (sa_r_star y)) with (- (1)) by (field; lra). lra.
Qed.
Lemma sflux_cv : Un_cv (fun n => flux_at (u1s n) (u2s n) (spos (xs n) (ts n)) (rs n) (dflt 1 (sa_r_star (xs n)))) (flux_at u1 u2 (spos x t) r (dflt 1 (sa_r_star x))).
Proof.
  assert (R0 := so_r_star _ ok). assert (A := dist_cv). assert (B := D_cv). assert (W := seen_cv).
  rewrite (flux_seen x t u1 u2 r ok Hd). eapply cv_ext. { intro n. symmetry. apply (flux_seen (xs n) (ts n) (u1s n) (u2s n) (rs n) (oks n) (Hds n)). }
  destruct (Rtotal_order (Rabs (sdt x t)) (sa_duration x / 2)) as [L|[L|L]].
  - rewrite lt_yes by lra.
    destruct (cv_pos (fun n => sa_duration (xs n) / 2 - Rabs (sdt (xs n) (ts n))) (sa_duration x / 2 - Rabs (sdt x t)) ltac:(lra) ltac:(cv; lra)) as [N HN].
    apply cv_late with (u := seen) (N := N); [|exact W]. intros n Hn. specialize (HN n Hn). cbv beta in HN. rewrite lt_yes by lra. reflexivity.
  - rewrite lt_no by lra.
    assert (Z : rel_flux u1 u2 (apart (spos x t) / dflt 1 (sa_r_star x)) (r / dflt 1 (sa_r_star x)) 1 = 0).
    { apply rel_flux_out; [exact Hd|left]. rewrite (contact_apart L). replace (dflt 1 (sa_r_star x) * (1 + dflt 0 (sa_ror x)) / dflt 1 (sa_r_star x)) with (1 + dflt 0 (sa_ror x)) by (field; lra).
      assert (Q : Rabs (r / dflt 1 (sa_r_star x)) <= dflt 0 (sa_ror x)). { unfold Rdiv. rewrite Rabs_mult, Rabs_inv, (Rabs_pos_eq (dflt 1 _)) by lra. apply Rmult_le_reg_r with (dflt 1 (sa_r_star x)); [exact R0|]. rewrite Rmult_assoc, Rinv_l by lra. lra. }
      assert (Q' := Rabs_pos (r / dflt 1 (sa_r_star x))). rewrite (Rabs_pos_eq (1 + _)) by lra. lra. }
    rewrite Z in W. apply Un_cv_squeeze with (d := fun n => Rabs (seen n)).
    + intro n. rewrite Rminus_0_r. destruct (Rltb _ _); [apply Rle_refl|]. rewrite Rabs_R0. apply Rabs_pos.
    + apply (cv_lim _ (Rabs 0)); [apply Rabs_R0|]. apply cv_abs. exact W.
  - rewrite lt_no by lra.
    destruct (cv_pos (fun n => Rabs (sdt (xs n) (ts n)) - sa_duration (xs n) / 2) (Rabs (sdt x t) - sa_duration x / 2) ltac:(lra) ltac:(cv; lra)) as [N HN].
    apply cv_late with (u := fun _ => 0) (N := N); [|apply cv_const]. intros n Hn. specialize (HN n Hn). cbv beta in HN. rewrite lt_no by lra. reflexivity.
Qed.
End S.

Lemma simple_position_cv xs x ts t : sargs_tend xs x -> (forall n, simple_ok (xs n)) -> simple_ok x -> Un_cv ts t ->
  (~ half_way x t -> Un_cv (fun n => sx (xs n) (ts n)) (sx x t)) /\ Un_cv (fun n => sy (xs n) (ts n)) (sy x t) /\ Un_cv (fun n => sdist (xs n) (ts n)) (sdist x t) /\
  (~ at_contact x t -> exists N, forall n, (N <= n)%nat -> sz (xs n) (ts n) = sz x t).
Proof.
  intros AT oks ok Ct. split; [|split; [|split]].
  - intro H. exact (x_cv xs x ts t AT oks ok Ct H).
  - exact (y_cv xs x ts t AT).
  - exact (apart_cv xs x ts t AT oks ok Ct).
  - intro H. exact (z_cv xs x ts t AT oks ok Ct H).
Qed.
Lemma simple_light_tends u1s u1 u2s u2 n (X : nat -> sargs tens) xs (x : sargs tens) ys r rs r' rs' N t ts t' ts' texp es texp' es' osam order :
  disk_flux u1 u2 <> 0 -> (forall q, disk_flux (u1s q) (u2s q) <> 0) -> Un_cv u1s u1 -> Un_cv u2s u2 ->
  (forall q, simple_system n (X q) (xs q) /\ forall j, (j < n)%nat -> simple_ok (xs q j)) -> simple_system n x ys -> (forall j, (j < n)%nat -> simple_ok (ys j) /\ sargs_tend (fun q => xs q j) (ys j)) ->
  (forall q, elements n (r q) (rs q)) -> elements n r' rs' -> (forall j, (j < n)%nat -> Un_cv (fun q => rs q j) (rs' j) /\ Rabs (rs' j) <= dflt 0 (sa_ror (ys j)) * dflt 1 (sa_r_star (ys j))) ->
  (forall q, is_vector N (t q) /\ forall m, (m < N)%nat -> aget (t q) (at_time m) = Fin (ts q m)) -> is_vector N t' -> (forall m, (m < N)%nat -> aget t' (at_time m) = Fin (ts' m)) ->
  (forall m, (m < N)%nat -> Un_cv (fun q => ts q m) (ts' m)) ->
  (forall q, opt_exposures N (texp q) (es q) /\ is_none (texp q) = is_none texp') -> opt_exposures N texp' es' -> (forall m, (m < N)%nat -> Un_cv (fun q => es q m) (es' m)) ->
  (texp' <> None -> exists nodes weights, stencil osam order = Ok (nodes, weights)) ->
  tables_tend n N (fun q => get_light_curve (ld_init (Fin (u1s q)) (Fin (u2s q))) (Some (simple_api (simple_init (X q)))) (Some (r q)) (Some (t q)) (texp q) osam order (Some false) false)
    (get_light_curve (ld_init (Fin u1) (Fin u2)) (Some (simple_api (simple_init x))) (Some r') (Some t') texp' osam order (Some false) false).
Proof.
  intros Hd Hds C1 C2 HX Hx Hok Hr Hr' Cr Ht Ht' Hts' Ct He He' Ce Hst.
  destruct (simple_answers n x ys Hx (fun j Hj => proj1 (Hok j Hj))) as [HA HS].
  eapply (curves_tend u1s u1 u2s u2 n (fun q => simple_api (simple_init (X q))) _ false (fun q j s => spos (xs q j) s) (fun j s => spos (ys j) s) (fun q j => dflt 1 (sa_r_star (xs q j))) (fun j => dflt 1 (sa_r_star (ys j))) r rs r' rs' N t ts t' ts' texp es texp' es'); try assumption.
  - intro q. destruct (HX q) as [A B]. destruct (simple_answers n (X q) (xs q) A B) as [A1 A2]. split; [exact A1|split; [exact A2|]]. intros j Hj. apply (so_r_star _ (B j Hj)).
  - intros j Hj. apply (so_r_star _ (proj1 (Hok j Hj))).
  - intros m j y Hm Hj _ _. assert (Ctm := Ct m Hm). assert (Cem := Ce m Hm). destruct (Cr j Hj) as [Crj Sm]. destruct (Hok j Hj) as [okj ATj].
    apply (sflux_cv (fun q => xs q j) (ys j) (fun q => ts q m + es q m * y) (ts' m + es' m * y) ATj (fun q => proj2 (HX q) j Hj) okj ltac:(cv) u1s u2s u1 u2 (fun q => rs q j) (rs' j)); assumption.
Qed.
