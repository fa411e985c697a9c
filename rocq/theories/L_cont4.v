(** * Convergent parameters give convergent light curves *)
From Coq Require Import Reals Lra Lia Psatz List Bool Arith ZArith.
From Coquelicot Require Import Coquelicot.
From Verif Require Import Num CoreOps Inst CoreFlux M_units M_kepler M_fin M_tensor M_limbdark Spec_orbit Spec_params Spec_array Spec_light Spec_depth Spec_delay Spec_lip Spec_cont
  L_real L_flux L_orbit L_motion L_pmotion5 L_area L_depth L_lip L_light1 L_light4 L_light7 L_light8 L_depth2 L_depth3 L_lip2 L_cont L_cont2 L_cont3.
Import ListNotations.
Local Notation length := List.length.
Open Scope R_scope.

Section G.
Variable g : R -> R.
Hypothesis gc : forall x, continuous g x.
Hypothesis gb : forall mu, 0 <= mu <= 1 -> Rabs (g mu) <= 1.
Lemma hidden_tends bs b rs r : Un_cv bs b -> Un_cv rs r -> Un_cv (fun n => hidden_flux g (Rabs (bs n)) (Rabs (rs n))) (hidden_flux g (Rabs b) (Rabs r)).
Proof.
  intros Cb Cr.
  apply Un_cv_squeeze with (d := fun n => 4 * PI * 1 * Rabs (rs n) * Rabs (Rabs (bs n) - Rabs b) + PI * 1 * Rabs (Rabs (rs n) * Rabs (rs n) - Rabs r * Rabs r)).
  - intro n. assert (A := hidden_flux_lip g gc 1 gb (Rabs (bs n)) (Rabs b) (Rabs (rs n)) (Rabs_pos _) (Rabs_pos _) (Rabs_pos _)).
    assert (B := hidden_flux_lip_r g gc 1 gb (Rabs b) (Rabs (rs n)) (Rabs r) (Rabs_pos _) (Rabs_pos _) (Rabs_pos _)).
    replace (hidden_flux g (Rabs (bs n)) (Rabs (rs n)) - hidden_flux g (Rabs b) (Rabs r)) with ((hidden_flux g (Rabs (bs n)) (Rabs (rs n)) - hidden_flux g (Rabs b) (Rabs (rs n))) + (hidden_flux g (Rabs b) (Rabs (rs n)) - hidden_flux g (Rabs b) (Rabs r))) by ring.
    eapply Rle_trans; [apply Rabs_triang|]. lra.
  - assert (C1 := cv_abs _ _ Cb). assert (C2 := cv_abs _ _ Cr).
    assert (C3 := cv_zero _ _ C1). assert (C4 : Un_cv (fun n => Rabs (rs n) * Rabs (rs n)) (Rabs r * Rabs r)) by cv. apply cv_zero in C4.
    replace 0 with (4 * PI * 1 * Rabs r * 0 + PI * 1 * 0) by ring. cv.
Qed.
End G.

Definition law1 (mu : R) : R := 1 - mu.
Definition law2 (mu : R) : R := (1 - mu) * (1 - mu).
Lemma law1_cont x : continuous law1 x. Proof. apply (ex_derive_continuous law1). unfold law1. auto_derive. exact I. Qed.
Lemma law2_cont x : continuous law2 x. Proof. apply (ex_derive_continuous law2). unfold law2. auto_derive. exact I. Qed.
Lemma hidden_split u1 u2 b r : 0 <= b -> 0 <= r -> hidden_flux (intensity u1 u2) b r = hidden_flux basis0 b r - u1 * hidden_flux law1 b r - u2 * hidden_flux law2 b r.
Proof.
  intros Hb Hr. unfold hidden_flux.
  assert (I0 := hidden_int1 basis0 basis0_cont b r Hb Hr). assert (I1 := hidden_int1 law1 law1_cont b r Hb Hr). assert (I2 := hidden_int1 law2 law2_cont b r Hb Hr).
  apply is_RInt_unique.
  assert (J0 := RInt_correct (V := R_CompleteNormedModule) _ _ _ I0). assert (J1 := RInt_correct (V := R_CompleteNormedModule) _ _ _ I1). assert (J2 := RInt_correct (V := R_CompleteNormedModule) _ _ _ I2).
  assert (K1 := is_RInt_scal (V := R_NormedModule) _ _ _ u1 _ J1). assert (K2 := is_RInt_scal (V := R_NormedModule) _ _ _ u2 _ J2).
  assert (K := is_RInt_minus (V := R_NormedModule) _ _ _ _ _ _ (is_RInt_minus (V := R_NormedModule) _ _ _ _ _ _ J0 K1) K2).
  eapply is_RInt_ext; [|exact K]. intros z _. cbv beta. unfold minus, plus, opp, scal. cbn. unfold mult. cbn. unfold basis0, law1, law2, intensity. eqR. ring.
Qed.
Lemma rel_tends u1s u1 u2s u2 bs b rs r zs z : disk_flux u1 u2 <> 0 -> (forall n, disk_flux (u1s n) (u2s n) <> 0) -> Un_cv u1s u1 -> Un_cv u2s u2 -> Un_cv bs b -> Un_cv rs r -> (forall n, 0 < zs n) -> 0 < z ->
  Un_cv (fun n => rel_flux (u1s n) (u2s n) (bs n) (rs n) (zs n)) (rel_flux u1 u2 b r z).
Proof.
  intros Hd Hds C1 C2 Cb Cr Hzs Hz. rewrite rel_hidden by assumption. eapply cv_ext. { intro n. symmetry. apply rel_hidden; auto. }
  rewrite hidden_split by apply Rabs_pos. eapply cv_ext. { intro n. symmetry. rewrite hidden_split by apply Rabs_pos. reflexivity. }
  assert (H0 : Un_cv (fun n => hidden_flux basis0 (Rabs (bs n)) (Rabs (rs n))) (hidden_flux basis0 (Rabs b) (Rabs r))).
  { apply hidden_tends; try assumption; [apply basis0_cont|]. intros mu H. unfold basis0. rewrite Rabs_R1. lra. }
  assert (H1 : Un_cv (fun n => hidden_flux law1 (Rabs (bs n)) (Rabs (rs n))) (hidden_flux law1 (Rabs b) (Rabs r))).
  { apply hidden_tends; try assumption; [apply law1_cont|]. intros mu H. unfold law1. apply Rabs_le. lra. }
  assert (H2 : Un_cv (fun n => hidden_flux law2 (Rabs (bs n)) (Rabs (rs n))) (hidden_flux law2 (Rabs b) (Rabs r))).
  { apply hidden_tends; try assumption; [apply law2_cont|]. intros mu H. unfold law2. apply Rabs_le. nra. }
  assert (C : Un_cv (fun n => disk_flux (u1s n) (u2s n)) (disk_flux u1 u2)).
  { rewrite disk_value. eapply cv_ext. { intro n. symmetry. apply disk_value. } cv; lra. }
  cv.
Qed.

Lemma cv_tail u l N : Un_cv (fun n => u (n + N)%nat) l -> Un_cv u l.
Proof. intros C e He. destruct (C e He) as [M HM]. exists (M + N)%nat. intros n Hn. replace n with ((n - N) + N)%nat by lia. apply HM. lia. Qed.
Lemma cv_shift u l N : Un_cv u l -> Un_cv (fun n => u (n + N)%nat) l.
Proof. intros C e He. destruct (C e He) as [M HM]. exists M. intros n Hn. apply HM. lia. Qed.

(** the flux at one moment *)
Lemma flux_tends u1s u1 u2s u2 Ps P rs r rsts rst : disk_flux u1 u2 <> 0 -> (forall n, disk_flux (u1s n) (u2s n) <> 0) -> Un_cv u1s u1 -> Un_cv u2s u2 ->
  vec_tends Ps P -> Un_cv rs r -> (forall n, 0 < rsts n) -> 0 < rst -> Un_cv rsts rst -> (vz P = 0 -> rst + Rabs r < apart P) ->
  Un_cv (fun n => flux_at (u1s n) (u2s n) (Ps n) (rs n) (rsts n)) (flux_at u1 u2 P r rst).
Proof.
  intros Hd Hds C1 C2 (Cx & Cy & Cz) Cr Hss Hs Cs Hout.
  assert (Ca : Un_cv (fun n => apart (Ps n)) (apart P)). { unfold apart. cv. }
  destruct (Rtotal_order (vz P) 0) as [L|[L|L]].
  - assert (Z : flux_at u1 u2 P r rst = 0). { apply rel_flux_out; [exact Hd|right]. apply Rmult_le_reg_r with rst; [exact Hs|]. replace (vz P / rst * rst) with (vz P) by (field; lra). lra. }
    rewrite Z. destruct (cv_pos (fun n => - vz (Ps n)) (- vz P) ltac:(lra) ltac:(cv)) as [N HN].
    apply cv_late with (u := fun _ => 0) (N := N); [|apply cv_const]. intros n Hn. specialize (HN n Hn). symmetry. apply rel_flux_out; [apply Hds|right].
    apply Rmult_le_reg_r with (rsts n); [apply Hss|]. assert (Q := Hss n). replace (vz (Ps n) / rsts n * rsts n) with (vz (Ps n)) by (field; lra). lra.
  - specialize (Hout L).
    assert (O : forall u1 u2 P r rst, disk_flux u1 u2 <> 0 -> 0 < rst -> 0 < apart P - (rst + Rabs r) -> flux_at u1 u2 P r rst = 0).
    { clear. intros u1 u2 P r rst Hd Hs H. apply rel_flux_out; [exact Hd|left]. fold (apart P). assert (A := Rabs_pos r). rewrite (Rabs_pos_eq (apart P / rst)) by (apply Rdiv_le_0_compat; lra).
      unfold Rdiv at 1. rewrite Rabs_mult, (Rabs_pos_eq (/ rst)) by (left; apply Rinv_0_lt_compat; exact Hs).
      apply (Rmult_le_reg_r rst); [exact Hs|]. replace ((1 + Rabs r * / rst) * rst) with (rst + Rabs r) by (field; lra). replace (apart P / rst * rst) with (apart P) by (field; lra). lra. }
    rewrite O by (assumption || lra). assert (Cr' := cv_abs _ _ Cr).
    destruct (cv_pos (fun n => apart (Ps n) - (rsts n + Rabs (rs n))) (apart P - (rst + Rabs r)) ltac:(lra) ltac:(cv)) as [N HN].
    apply cv_late with (u := fun _ => 0) (N := N); [|apply cv_const]. intros n Hn. symmetry. apply O; auto.
  - destruct (cv_pos (fun n => vz (Ps n)) (vz P) L Cz) as [N HN]. apply cv_tail with (N := N). unfold flux_at.
    apply (cv_shift _ _ N) in C1. apply (cv_shift _ _ N) in C2. apply (cv_shift _ _ N) in Cx. apply (cv_shift _ _ N) in Cy. apply (cv_shift _ _ N) in Cr. apply (cv_shift _ _ N) in Cs. cbv beta in *.
    apply (rel_tends (fun n => u1s (n + N)%nat) u1 (fun n => u2s (n + N)%nat) u2 (fun n => sqrt (vx (Ps (n + N)%nat) * vx (Ps (n + N)%nat) + vy (Ps (n + N)%nat) * vy (Ps (n + N)%nat)) / rsts (n + N)%nat) _ (fun n => rs (n + N)%nat / rsts (n + N)%nat) _ (fun n => vz (Ps (n + N)%nat) / rsts (n + N)%nat)); auto.
    + cv. lra.
    + cv. lra.
    + intro n. apply Rdiv_lt_0_compat; [apply HN; lia|apply Hss].
    + apply Rdiv_lt_0_compat; assumption.
Qed.
Lemma mean_tends nodes weights (fs : nat -> R -> R) f ts t es e : (forall y, Un_cv (fun n => fs n (ts n + es n * y)) (f (t + e * y))) ->
  Un_cv (fun n => node_mean nodes weights (fs n) (ts n) (es n)) (node_mean nodes weights f t e).
Proof.
  intro H. unfold node_mean. revert weights. induction nodes as [|y nodes IH]; intros [|w weights]; cbn [combine map fold_right]; try apply cv_const.
  apply CV_plus; [|apply IH]. apply CV_mult; [apply cv_const|apply H].
Qed.

(** light curves of systems whose parameters converge, planet by planet *)
Lemma light_tends u1s u1 u2s u2 k n (X : nat -> kargs tens) xs os O (x : kargs tens) ys ps o cp r rs r' rs' N t ts t' ts' texp es texp' es' osam order :
  disk_flux u1 u2 <> 0 -> (forall q, disk_flux (u1s q) (u2s q) <> 0) -> Un_cv u1s u1 -> Un_cv u2s u2 ->
  consts_ok k -> (forall q, system k n (X q) (xs q) (os q)) -> (forall q, kep_init k (X q) = Ok (O q)) -> system k n x ys ps -> kep_init k x = Ok o ->
  (forall j, (j < n)%nat -> args_tend (fun q => xs q j) (ys j) /\ (ka_tper (ys j) <> None \/ sinw_of (ps j) <> -1)) ->
  (forall q, elements n (r q) (rs q)) -> elements n r' rs' -> (forall j, (j < n)%nat -> Un_cv (fun q => rs q j) (rs' j) /\ o_r_star (ps j) + Rabs (rs' j) < o_a (ps j) * (1 - ecc_of (ps j))) ->
  (forall q, is_vector N (t q) /\ forall m, (m < N)%nat -> aget (t q) (at_time m) = Fin (ts q m)) -> is_vector N t' -> (forall m, (m < N)%nat -> aget t' (at_time m) = Fin (ts' m)) ->
  (forall m, (m < N)%nat -> Un_cv (fun q => ts q m) (ts' m)) ->
  (forall q, opt_exposures N (texp q) (es q) /\ is_none (texp q) = is_none texp') -> opt_exposures N texp' es' -> (forall m, (m < N)%nat -> Un_cv (fun q => es q m) (es' m)) ->
  (texp' <> None -> exists nodes weights, stencil osam order = Ok (nodes, weights)) ->
  tables_tend n N (fun q => get_light_curve (ld_init (Fin (u1s q)) (Fin (u2s q))) (Some (kep_api k cp (O q))) (Some (r q)) (Some (t q)) (texp q) osam order (Some false) false)
    (get_light_curve (ld_init (Fin u1) (Fin u2)) (Some (kep_api k cp o)) (Some r') (Some t') texp' osam order (Some false) false).
Proof.
  intros Hd Hds C1 C2 kok sys HO sy Ho Hargs Hr Hr' Cr Ht Ht' Hts' Ct He He' Ce Hst.
  assert (Flux : forall m j y, (m < N)%nat -> (j < n)%nat -> Un_cv (fun q => flux_at (u1s q) (u2s q) (pos k (os q j) Relative (ts q m + es q m * y) None false) (rs q j) (o_r_star (os q j)))
     (flux_at u1 u2 (pos k (ps j) Relative (ts' m + es' m * y) None false) (rs' j) (o_r_star (ps j)))).
  { intros m j y Hm Hj. destruct (Hargs j Hj) as [AT HS]. destruct (Cr j Hj) as [Crj Out]. specialize (Ct m Hm). specialize (Ce m Hm).
    assert (Hi : forall q, kep_init k (xs q j) = Ok (os q j)) by (intro q; apply (sy_init _ _ _ _ _ (sys q) j Hj)).
    assert (Hp : forall q, physical (os q j)) by (intro q; apply (sy_phys _ _ _ _ _ (sys q) j Hj)).
    assert (Hi' := sy_init _ _ _ _ _ sy j Hj). assert (Hp' := sy_phys _ _ _ _ _ sy j Hj). assert (NE : duration_fits k (ys j) (ps j)) by (left; exact (sy_dur _ _ _ _ _ sy j Hj)).
    apply flux_tends; try assumption.
    - apply (pos_tends k kok (fun q => xs q j) (ys j) (fun q => os q j) (ps j) AT Hi Hp Hi' Hp' NE HS (fun q => ts q m + es q m * y) (ts' m + es' m * y)); [cv|]. intro q. reflexivity.
    - intro q. apply (ph_r_star _ (Hp q)).
    - apply (ph_r_star _ Hp').
    - apply (tn_r_star _ _ (AA k kok (fun q => xs q j) (ys j) (fun q => os q j) (ps j) AT Hi Hi' Hp' NE HS)).
    - intro Z. destruct (distance_law k (ys j) (ps j) (ts' m + es' m * y) kok Hi' Hp') as (_ & _ & _ & [B _] & _). cbv zeta in B. eapply Rlt_le_trans; [exact Out|]. eapply Rle_trans; [exact B|].
      unfold norm, dot, apart. rewrite Z. right. f_equal. ring. }
  assert (Curve : forall q, exists A f, get_light_curve (ld_init (Fin (u1s q)) (Fin (u2s q))) (Some (kep_api k cp (O q))) (Some (r q)) (Some (t q)) (texp q) osam order (Some false) false = Ok A /\ light_table n N A f /\
    match texp q with
    | None => forall m j, f m j = flux_at (u1s q) (u2s q) (pos k (os q j) Relative (ts q m) None false) (rs q j) (o_r_star (os q j))
    | Some _ => exists nodes weights, stencil osam order = Ok (nodes, weights) /\ forall m j, f m j = node_mean nodes weights (fun s => flux_at (u1s q) (u2s q) (pos k (os q j) Relative s None false) (rs q j) (o_r_star (os q j))) (ts q m) (es q m)
    end).
  { intro q. destruct (kepler_answers k n (X q) (xs q) (os q) (O q) cp kok (sys q) (HO q)) as [HA Hs]. destruct (Ht q) as [Ht1 Ht2]. destruct (He q) as [He1 He2].
    apply (curve_of (u1s q) (u2s q) _ false n _ _ (r q) (rs q) N (t q) (ts q) (texp q) (es q) osam order (Hds q) HA Hs); try assumption; [|apply Hr|].
    - intros j Hj. apply (ph_r_star _ (sy_phys _ _ _ _ _ (sys q) j Hj)).
    - intro Z. apply Hst. intro Z'. apply Z. rewrite Z' in He2. destruct (texp q); [discriminate|reflexivity]. }
  destruct (kepler_answers k n x ys ps o cp kok sy Ho) as [HA Hs].
  destruct (curve_of u1 u2 _ false n _ _ r' rs' N t' ts' texp' es' osam order Hd HA Hs (fun j Hj => ph_r_star _ (sy_phys _ _ _ _ _ sy j Hj)) Hr' Ht' Hts' He' Hst) as (A & f & EA & TA & F).
  destruct texp' as [e|].
  - destruct (Hst ltac:(discriminate)) as (nodes & weights & St).
    exists (fun q m j => node_mean nodes weights (fun s => flux_at (u1s q) (u2s q) (pos k (os q j) Relative s None false) (rs q j) (o_r_star (os q j))) (ts q m) (es q m)),
      (fun m j => node_mean nodes weights (fun s => flux_at u1 u2 (pos k (ps j) Relative s None false) (rs' j) (o_r_star (ps j))) (ts' m) (es' m)). split; [|split].
    + intro q. destruct (Curve q) as (B & g & EB & TB & G). destruct (He q) as [_ He2]. destruct (texp q); [|discriminate]. exists B. split; [exact EB|].
      destruct G as (nodes' & weights' & St' & G). rewrite St in St'. injection St' as <- <-. destruct TB as [S V]. split; [exact S|]. intros m j Hm Hj. rewrite V by assumption. rewrite G. reflexivity.
    + exists A. split; [exact EA|]. destruct F as (nodes' & weights' & St' & F). rewrite St in St'. injection St' as <- <-. destruct TA as [S V]. split; [exact S|]. intros m j Hm Hj. rewrite V by assumption. rewrite F. reflexivity.
    + intros m j Hm Hj.
      apply (mean_tends nodes weights (fun q s => flux_at (u1s q) (u2s q) (pos k (os q j) Relative s None false) (rs q j) (o_r_star (os q j))) _ (fun q => ts q m) (ts' m) (fun q => es q m) (es' m)).
      intro y. apply Flux; assumption.
  - exists (fun q m j => flux_at (u1s q) (u2s q) (pos k (os q j) Relative (ts q m) None false) (rs q j) (o_r_star (os q j))), (fun m j => flux_at u1 u2 (pos k (ps j) Relative (ts' m) None false) (rs' j) (o_r_star (ps j))). split; [|split].
    + intro q. destruct (Curve q) as (B & g & EB & TB & G). destruct (He q) as [_ He2]. destruct (texp q); [discriminate|]. exists B. split; [exact EB|].
      destruct TB as [S V]. split; [exact S|]. intros m j Hm Hj. rewrite V by assumption. rewrite G. reflexivity.
    + exists A. split; [exact EA|]. destruct TA as [S V]. split; [exact S|]. intros m j Hm Hj. rewrite V by assumption. rewrite F. reflexivity.
    + intros m j Hm Hj. assert (Q := Flux m j 0 Hm Hj). rewrite Rmult_0_r, Rplus_0_r in Q. eapply cv_ext; [|exact Q]. intro q. cbv beta. rewrite Rmult_0_r, Rplus_0_r. reflexivity.
Qed.
