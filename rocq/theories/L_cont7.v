(** * Convergent parameters of a TTVOrbit *)
From Coq Require Import Reals Lra Lia Psatz List Bool Arith ZArith Sorted.
From Coquelicot Require Import Coquelicot.
From Verif Require Import Num CoreOps Inst CoreFlux M_units M_kepler M_fin M_tensor M_ttv M_limbdark Spec_orbit Spec_params Spec_array Spec_light Spec_depth Spec_delay Spec_lip Spec_ttv Spec_cont Spec_cont2 Spec_ttvmove
  L_real L_orbit L_motion L_pmotion4 L_pmotion5 L_light4 L_ttv1 L_ttv2 L_ttv3 L_ttv4 L_ttv7 L_ttv8 L_cont L_cont2 L_cont3 L_cont4 L_cont5 L_cont6 L_ttvmove L_ttvmove2 L_ttvmove3.
Import ListNotations.
Local Notation length := List.length.
Open Scope R_scope.

(** ** the fit *)
Lemma lists_tail v vs y ys : lists_tend (fun q => v q :: vs q) (y :: ys) -> Un_cv v y /\ lists_tend vs ys.
Proof. intros [L C]. split; [exact (C 0%nat ltac:(cbn; lia))|]. split; [intro q; specialize (L q); cbn in L; lia|]. intros i Hi. exact (C (S i) ltac:(cbn; lia)). Qed.
Lemma lists_split ls y ys : lists_tend ls (y :: ys) -> (forall q, ls q = hd 0 (ls q) :: tl (ls q)) /\ Un_cv (fun q => hd 0 (ls q)) y /\ lists_tend (fun q => tl (ls q)) ys.
Proof.
  intros [L C]. assert (E : forall q, ls q = hd 0 (ls q) :: tl (ls q)) by (intro q; specialize (L q); destruct (ls q); [discriminate|reflexivity]). split; [exact E|].
  apply (lists_tail (fun q => hd 0 (ls q)) (fun q => tl (ls q))). split; [intro q; rewrite <- E; apply L|]. intros i Hi. eapply cv_ext; [|exact (C i Hi)]. intro q. cbv beta. rewrite <- E. reflexivity.
Qed.
Lemma ps_cv f inds : (forall x vs v, Un_cv vs v -> Un_cv (fun q => f x (vs q)) (f x v)) -> forall ls l, lists_tend ls l -> Un_cv (fun q => ps f inds (ls q)) (ps f inds l).
Proof.
  intro Hf. induction inds as [|i inds IH]; intros ls l H; [cbn [ps]; apply cv_const|]. destruct l as [|y ys].
  - destruct H as [L _]. eapply cv_ext; [|apply cv_const]. intro q. specialize (L q). destruct (ls q); [reflexivity|discriminate].
  - destruct (lists_split _ _ _ H) as (E & C1 & C2). eapply cv_ext. { intro q. rewrite (E q). reflexivity. } cbn [ps]. apply CV_plus; [apply (Hf (IZR i) _ _ C1)|apply IH; exact C2].
Qed.
Lemma fit_cv inds ls l : lists_tend ls l -> length inds = length l -> (exists p q, In p inds /\ In q inds /\ p <> q) ->
  Un_cv (fun q => fit_a inds (ls q)) (fit_a inds l) /\ Un_cv (fun q => fit_b inds (ls q)) (fit_b inds l).
Proof.
  intros H HL two. assert (D := denom_pos inds l HL two).
  assert (A1 := ps_cv (fun _ _ => 1) inds ltac:(intros; cbv beta; apply cv_const) _ _ H). assert (A2 := ps_cv (fun x _ => x) inds ltac:(intros; cbv beta; apply cv_const) _ _ H). assert (A3 := ps_cv (fun x _ => x * x) inds ltac:(intros; cbv beta; apply cv_const) _ _ H).
  assert (A4 := ps_cv (fun _ y => y) inds ltac:(intros; cbv beta; assumption) _ _ H). assert (A5 := ps_cv (fun x y => x * y) inds ltac:(intros; cbv beta; cv) _ _ H).
  unfold fit_a, fit_b. split; cv; lra.
Qed.
Lemma residuals_len inds ys a b : length inds = length ys -> length (residuals inds ys a b) = length ys.
Proof. revert ys. induction inds as [|i l IH]; intros [|v y] H; try discriminate H; [reflexivity|]. cbn. rewrite IH by (cbn in H; lia). reflexivity. Qed.
Lemma residuals_nth inds ys a b i : length inds = length ys -> (i < length ys)%nat -> nth i (residuals inds ys a b) 0 = nth i ys 0 - (a + b * IZR (nth i inds 0%Z)).
Proof.
  revert ys i. induction inds as [|z l IH]; intros [|v y] i H Hi; try discriminate H; [cbn in Hi; lia|]. destruct i as [|i]; [reflexivity|]. cbn [residuals nth]. apply IH; cbn in *; lia.
Qed.
Lemma fit_tends k (xs : nat -> targs) os x o times' times i ys y inds : (forall q, ttv_init k (xs q) = Ok (os q) /\ ta_ttvs (xs q) = None /\ ta_times (xs q) = Some (times' q) /\ nth_error (times' q) i = Some (map Fin (ys q)) /\ given_labels (xs q) i (map Fin (ys q)) = Some inds) ->
  ttv_init k x = Ok o -> ta_ttvs x = None -> ta_times x = Some times -> nth_error times i = Some (map Fin y) -> given_labels x i (map Fin y) = Some inds ->
  lists_tend ys y -> length inds = length y -> (exists p q, In p inds /\ In q inds /\ p <> q) ->
  exists as_ bs rs a b r, (forall q, entry (o_t0 (tt_orbit (os q))) i = Fin (as_ q) /\ entry (tt_period (os q)) i = Fin (bs q) /\ nth_error (tt_ttvs (os q)) i = Some (map Fin (rs q))) /\
    entry (o_t0 (tt_orbit o)) i = Fin a /\ entry (tt_period o) i = Fin b /\ nth_error (tt_ttvs o) i = Some (map Fin r) /\ Un_cv as_ a /\ Un_cv bs b /\ lists_tend rs r.
Proof.
  intros Hs Hi E1 E2 E3 E4 H HL two.
  assert (F : forall x o times ys, ttv_init k x = Ok o -> ta_ttvs x = None -> ta_times x = Some times -> nth_error times i = Some (map Fin ys) -> given_labels x i (map Fin ys) = Some inds -> length inds = length ys ->
    entry (o_t0 (tt_orbit o)) i = Fin (fit_a inds ys) /\ entry (tt_period o) i = Fin (fit_b inds ys) /\ nth_error (tt_ttvs o) i = Some (map Fin (residuals inds ys (fit_a inds ys) (fit_b inds ys)))).
  { clear - two. intros x o times ys H0 H1 H2 H3 H4 HL. destruct (ttv_least_squares k x o times H0 H1 H2 i ys H3) as (inds' & G1 & _ & G2 & _). rewrite H4 in G1. injection G1 as <-.
    destruct (G2 HL two) as (a & b & A & B & C & D & _). destruct (D (fit_a inds ys) (fit_b inds ys)) as [D1 D2]. destruct (fit_min inds ys HL two a b) as [D3 _]. destruct (D2 ltac:(lra)) as [<- <-]. auto. }
  destruct (fit_cv inds ys y H HL two) as [Ca Cb]. assert (Hl : forall q, length inds = length (ys q)) by (intro q; rewrite (proj1 H q); exact HL).
  exists (fun q => fit_a inds (ys q)), (fun q => fit_b inds (ys q)), (fun q => residuals inds (ys q) (fit_a inds (ys q)) (fit_b inds (ys q))), (fit_a inds y), (fit_b inds y), (residuals inds y (fit_a inds y) (fit_b inds y)).
  split. { intro q. destruct (Hs q) as (S1 & S2 & S3 & S4 & S5). apply (F _ _ _ _ S1 S2 S3 S4 S5 (Hl q)). }
  destruct (F x o times y Hi E1 E2 E3 E4 HL) as (F1 & F2 & F3). split; [exact F1|]. split; [exact F2|]. split; [exact F3|]. split; [exact Ca|]. split; [exact Cb|].
  split. { intro q. rewrite !residuals_len by (auto; exact HL). apply (proj1 H). }
  intros j Hj. rewrite residuals_len in Hj by exact HL. rewrite residuals_nth by assumption. eapply cv_ext. { intro q. symmetry. apply residuals_nth; [apply Hl|rewrite (proj1 H q); exact Hj]. }
  assert (C := proj2 H j Hj). cv.
Qed.

(** ** the nearest transit *)
Lemma select_cv m (fs : nat -> nat -> R) (chosen : nat -> nat -> Prop) a L :
  (forall i, (i < m)%nat -> forall e, 0 < e -> exists N, forall q, (N <= q)%nat -> chosen i q -> Rabs (fs i q - L) < e) ->
  (forall q, exists i, (i < m)%nat /\ chosen i q /\ a q = fs i q) -> Un_cv a L.
Proof.
  intros H Ha e He. assert (K : exists N, forall q i, (N <= q)%nat -> (i < m)%nat -> chosen i q -> Rabs (fs i q - L) < e).
  { clear Ha a. induction m as [|m IH]; [exists 0%nat; intros; lia|]. destruct IH as [N1 H1]; [intros i Hi; apply H; lia|]. destruct (H m ltac:(lia) e He) as [N2 H2].
    exists (max N1 N2). intros q i Hq Hi Hc. destruct (Nat.eq_dec i m) as [->|Hn]; [apply H2; [lia|exact Hc]|apply H1; [lia|lia|exact Hc]]. }
  destruct K as [N HN]. exists N. intros q Hq. destruct (Ha q) as (i & Hi & Hc & ->). apply HN; [lia|exact Hi|exact Hc].
Qed.
(** a quantity that depends on the time since the nearest transit *)
Lemma nearest_cv (ls : nat -> list R) l ts t (cs : nat -> R) c (G : nat -> R -> R) (G' : R -> R) :
  StronglySorted Rlt l -> lists_tend ls l -> Un_cv ts t -> (forall q, nearest (ls q) (ts q) (cs q)) -> nearest l t c ->
  (forall ss s, Un_cv ss s -> Un_cv (fun q => G q (ss q)) (G' s)) ->
  (forall v, consecutive l c v -> t = (c + v) / 2 -> G' ((v - c) / 2) = G' (- ((v - c) / 2))) ->
  Un_cv (fun q => G q (ts q - cs q)) (G' (t - c)).
Proof.
  intros So [HL Cl] Ct Hcs [Ic Hc] HG Hm.
  apply (select_cv (length l) (fun i q => G q (ts q - nth i (ls q) 0)) (fun i q => cs q = nth i (ls q) 0)).
  - intros i Hi. assert (Ci := Cl i Hi). set (v := nth i l 0) in *. assert (Iv : In v l) by (apply nth_In; exact Hi). destruct (Hc v Iv) as [D1 D2].
    assert (Cv : Un_cv (fun q => G q (ts q - nth i (ls q) 0)) (G' (t - v))) by (apply (HG (fun q => ts q - nth i (ls q) 0)); cv).
    destruct D1 as [D1|D1].
    + (* another one is nearer *)
      intros e He. destruct (In_nth l c 0 Ic) as (p & Hp & Ep). assert (Cp := Cl p Hp). rewrite Ep in Cp.
      assert (K1 : Un_cv (fun q => Rabs (ts q - nth i (ls q) 0)) (Rabs (t - v))) by (apply cv_abs; cv). assert (K2 : Un_cv (fun q => Rabs (ts q - nth p (ls q) 0)) (Rabs (t - c))) by (apply cv_abs; cv).
      destruct (cv_pos (fun q => Rabs (ts q - nth i (ls q) 0) - Rabs (ts q - nth p (ls q) 0)) (Rabs (t - v) - Rabs (t - c)) ltac:(lra) ltac:(cv)) as [N HN].
      exists N. intros q Hq Eq. exfalso. specialize (HN q Hq). cbv beta in HN. destruct (Hcs q) as [_ Q]. destruct (Q (nth p (ls q) 0)) as [Q1 _]; [apply nth_In; rewrite HL; exact Hp|]. rewrite Eq in Q1. lra.
    + assert (E : G' (t - v) = G' (t - c)).
      { specialize (D2 D1). destruct D2 as [D2|D2]; [|rewrite <- D2; reflexivity].
        assert (Et : t = (c + v) / 2). { revert D1. unfold Rabs. destruct (Rcase_abs (t - c)), (Rcase_abs (t - v)); intro; lra. }
        assert (Cc : consecutive l c v). { apply gap_consec; try assumption. intros w Iw. destruct (Hc w Iw) as [W _]. destruct (Rle_lt_dec w c) as [|w1]; [left; assumption|]. destruct (Rle_lt_dec v w) as [|w2]; [right; assumption|]. exfalso.
          revert W. unfold Rabs. destruct (Rcase_abs (t - c)), (Rcase_abs (t - w)); intro; lra. }
        assert (M := Hm v Cc Et). replace (t - v) with (- ((v - c) / 2)) by lra. replace (t - c) with ((v - c) / 2) by lra. symmetry. exact M. }
      rewrite E in Cv. intros e He. destruct (Cv e He) as [N HN]. exists N. intros q Hq _. apply HN. exact Hq.
  - intro q. destruct (Hcs q) as [Iq _]. destruct (In_nth _ _ 0 Iq) as (i & Hi & Ei). exists i. rewrite HL in Hi. split; [exact Hi|]. split; [symmetry; exact Ei|]. rewrite Ei. reflexivity.
Qed.

Lemma period_back k x o b s (z : Z) : consts_ok k -> kep_init k x = Ok o -> physical o -> pos k o b (s + IZR z * o_period o) None false = pos k o b s None false /\ vel o b (s + IZR z * o_period o) = vel o b s.
Proof. intros kok Hi Hp. destruct (periodic_motion k x o s z None false None None kok Hi Hp) as (A & _). destruct (A b) as (A1 & A2 & _). split; assumption. Qed.

Lemma ttv_motion_tends : forall k n o os tts X V o' ps tts' X' V' xs x j b ts t, consts_ok k ->
  (forall q, ttv_system k n (o q) (os q) (tts q) /\ ttv_motion k n (o q) (X q) (V q)) -> ttv_system k n o' ps tts' -> ttv_motion k n o' X' V' -> (j < n)%nat ->
  (forall q, kep_init k (xs q) = Ok (os q j)) -> kep_init k x = Ok (ps j) -> args_tend xs x -> duration_fits k x (ps j) -> sinw_of (ps j) <> -1 ->
  lists_tend (fun q => tts q j) (tts' j) -> Un_cv ts t -> (forall u v, consecutive (tts' j) u v -> t = (u + v) / 2 -> whole (v - u) (o_period (ps j))) ->
  vec_tends (fun q => X q b j (ts q)) (X' b j t) /\ vec_tends (fun q => V q b j (ts q)) (V' b j t).
Proof.
  intros k n o os tts X V o' ps tts' X' V' xs x j b ts t kok Hq Hs Hm Hj Hi Hx AT NE HS HT Ct Hw.
  assert (Hp : forall q, physical (os q j)). { intro q. destruct (under_j k n _ _ _ (proj1 (Hq q)) j Hj) as (y & _ & P). exact P. }
  destruct (under_j k n _ _ _ Hs j Hj) as (y & _ & Hp').
  set (near := fun q => match look (o q) j (Fin (ts q)) with Fin v => v | _ => 0 end).
  assert (Hn : forall q, nearest (tts q j) (ts q) (near q)). { intro q. destruct (look_ok k n _ _ _ (proj1 (Hq q)) j (ts q) Hj) as (v & E & N). unfold near. rewrite E. exact N. }
  destruct (look_ok k n _ _ _ Hs j t Hj) as (c & _ & Hc).
  assert (So := tv_inc _ _ _ _ _ Hs j Hj).
  destruct (facts k kok xs x (fun q => os q j) (ps j) AT Hi Hx Hp' NE (or_intror HS)) as (_ & _ & _ & T0). specialize (T0 HS).
  assert (M : forall ss s, Un_cv ss s -> vec_tends (fun q => pos k (os q j) b (o_t0 (os q j) + ss q) None false) (pos k (ps j) b (o_t0 (ps j) + s) None false) /\ vec_tends (fun q => vel (os q j) b (o_t0 (os q j) + ss q)) (vel (ps j) b (o_t0 (ps j) + s))).
  { intros ss s Cs. destruct (motion_continuous k xs x (fun q => os q j) (ps j) (fun q => o_t0 (os q j) + ss q) (o_t0 (ps j) + s) (fun _ => None) None kok AT (fun q => conj (Hi q) (Hp q)) Hx Hp' NE (or_intror HS) ltac:(cv) ltac:(intro; reflexivity) b) as (A & B & _). split; assumption. }
  assert (Pb : forall v, consecutive (tts' j) c v -> t = (c + v) / 2 -> pos k (ps j) b (o_t0 (ps j) + (v - c) / 2) None false = pos k (ps j) b (o_t0 (ps j) + - ((v - c) / 2)) None false /\ vel (ps j) b (o_t0 (ps j) + (v - c) / 2) = vel (ps j) b (o_t0 (ps j) + - ((v - c) / 2))).
  { intros v Cc Et. destruct (Hw c v Cc Et) as [z Ez]. destruct (period_back k x (ps j) b (o_t0 (ps j) + - ((v - c) / 2)) z kok Hx Hp') as [P1 P2]. rewrite <- Ez in P1, P2. replace (o_t0 (ps j) + - ((v - c) / 2) + (v - c)) with (o_t0 (ps j) + (v - c) / 2) in P1, P2 by field. split; assumption. }
  assert (E1 : forall q, X q b j (ts q) = pos k (os q j) b (o_t0 (os q j) + (ts q - near q)) None false /\ V q b j (ts q) = vel (os q j) b (o_t0 (os q j) + (ts q - near q))).
  { intro q. destruct (Hq q) as [Q1 Q2]. apply (motion_at k n (o q) (os q) (tts q) kok Q1 (X q) (V q) Q2 b j (ts q) (near q) Hj (Hn q)). }
  destruct (motion_at k n o' ps tts' kok Hs X' V' Hm b j t c Hj Hc) as [E2 E3]. rewrite E2, E3.
  assert (N : forall (h : R * R * R -> R), 
    ((forall ss s, Un_cv ss s -> Un_cv (fun q => h (pos k (os q j) b (o_t0 (os q j) + ss q) None false)) (h (pos k (ps j) b (o_t0 (ps j) + s) None false))) -> Un_cv (fun q => h (X q b j (ts q))) (h (pos k (ps j) b (o_t0 (ps j) + (t - c)) None false))) /\
    ((forall ss s, Un_cv ss s -> Un_cv (fun q => h (vel (os q j) b (o_t0 (os q j) + ss q))) (h (vel (ps j) b (o_t0 (ps j) + s)))) -> Un_cv (fun q => h (V q b j (ts q))) (h (vel (ps j) b (o_t0 (ps j) + (t - c)))))).
  { intro h. split; intro Hh.
    - eapply cv_ext; [|apply (nearest_cv (fun q => tts q j) (tts' j) ts t near c (fun q s => h (pos k (os q j) b (o_t0 (os q j) + s) None false)) (fun s => h (pos k (ps j) b (o_t0 (ps j) + s) None false)) So HT Ct Hn Hc Hh)].
      + intro q. cbv beta. rewrite (proj1 (E1 q)). reflexivity.
      + intros v Cc Et. cbv beta. rewrite (proj1 (Pb v Cc Et)). reflexivity.
    - eapply cv_ext; [|apply (nearest_cv (fun q => tts q j) (tts' j) ts t near c (fun q s => h (vel (os q j) b (o_t0 (os q j) + s))) (fun s => h (vel (ps j) b (o_t0 (ps j) + s))) So HT Ct Hn Hc Hh)].
      + intro q. cbv beta. rewrite (proj2 (E1 q)). reflexivity.
      + intros v Cc Et. cbv beta. rewrite (proj2 (Pb v Cc Et)). reflexivity. }
  split; (split; [|split]); apply N; intros ss s Cs; destruct (M ss s Cs) as [(A1 & A2 & A3) (B1 & B2 & B3)]; assumption.
Qed.

Lemma ttv_light_tends : forall u1s u1 u2s u2 k n (o : nat -> ttvorbit) os tts o' ps tts' xs x cp r rs r' rs' N t ts t' ts' texp es texp' es' osam order,
  disk_flux u1 u2 <> 0 -> (forall q, disk_flux (u1s q) (u2s q) <> 0) -> Un_cv u1s u1 -> Un_cv u2s u2 -> consts_ok k ->
  (forall q, ttv_system k n (o q) (os q) (tts q)) -> ttv_system k n o' ps tts' ->
  (forall j, (j < n)%nat -> (forall q, kep_init k (xs q j) = Ok (os q j)) /\ kep_init k (x j) = Ok (ps j) /\ args_tend (fun q => xs q j) (x j) /\ duration_fits k (x j) (ps j) /\ sinw_of (ps j) <> -1 /\
    lists_tend (fun q => tts q j) (tts' j)) ->
  (forall q, elements n (r q) (rs q)) -> elements n r' rs' -> (forall j, (j < n)%nat -> Un_cv (fun q => rs q j) (rs' j) /\ o_r_star (ps j) + Rabs (rs' j) < o_a (ps j) * (1 - ecc_of (ps j))) ->
  (forall j u v, (j < n)%nat -> consecutive (tts' j) u v -> meets u1 u2 k (ps j) (rs' j) (v - u)) ->
  (forall q, is_vector N (t q) /\ forall m, (m < N)%nat -> aget (t q) (at_time m) = Fin (ts q m)) -> is_vector N t' -> (forall m, (m < N)%nat -> aget t' (at_time m) = Fin (ts' m)) ->
  (forall m, (m < N)%nat -> Un_cv (fun q => ts q m) (ts' m)) ->
  (forall q, opt_exposures N (texp q) (es q) /\ is_none (texp q) = is_none texp') -> opt_exposures N texp' es' -> (forall m, (m < N)%nat -> Un_cv (fun q => es q m) (es' m)) ->
  (texp' <> None -> exists nodes weights, stencil osam order = Ok (nodes, weights)) ->
  tables_tend n N (fun q => get_light_curve (ld_init (Fin (u1s q)) (Fin (u2s q))) (Some (ttv_api k cp (o q))) (Some (r q)) (Some (t q)) (texp q) osam order (Some false) false)
    (get_light_curve (ld_init (Fin u1) (Fin u2)) (Some (ttv_api k cp o')) (Some r') (Some t') texp' osam order (Some false) false).
Proof.
  intros u1s u1 u2s u2 k n o os tts o' ps tts' xs x cp r rs r' rs' N t ts t' ts' texp es texp' es' osam order Hd Hds C1 C2 kok Hq Hs Hall Hr Hr' Cr Hmeet Ht Ht' Hts' Ct He He' Ce Hst.
  set (near := fun q j s => match look (o q) j (Fin s) with Fin v => v | _ => 0 end).
  assert (Hn : forall q, nearest_transits n (tts q) (near q)). { intros q j s Hj. destruct (look_ok k n _ _ _ (Hq q) j s Hj) as (v & E & Nv). unfold near. rewrite E. exact Nv. }
  destruct (near_exists k n _ _ _ Hs) as [near' Hn'].
  destruct (ttv_answers k n o' ps tts' near' kok Hs Hn' cp) as [HA HS'].
  assert (Hp : forall q j, (j < n)%nat -> physical (os q j)). { intros q j Hj. destruct (under_j k n _ _ _ (Hq q) j Hj) as (y & _ & P). exact P. }
  assert (Hp' : forall j, (j < n)%nat -> physical (ps j)). { intros j Hj. destruct (under_j k n _ _ _ Hs j Hj) as (y & _ & P). exact P. }
  eapply (curves_tend u1s u1 u2s u2 n (fun q => ttv_api k cp (o q)) _ false (fun q j s => pos k (os q j) Relative (orbit_time (os q) (near q) j s) None false) (fun j s => pos k (ps j) Relative (orbit_time ps near' j s) None false) (fun q j => o_r_star (os q j)) (fun j => o_r_star (ps j)) r rs r' rs' N t ts t' ts' texp es texp' es'); try assumption.
  - intro q. destruct (ttv_answers k n (o q) (os q) (tts q) (near q) kok (Hq q) (Hn q) cp) as [A1 A2]. split; [exact A1|split; [exact A2|]]. intros j Hj. apply (ph_r_star _ (Hp q j Hj)).
  - intros j Hj. apply (ph_r_star _ (Hp' j Hj)).
  - intros m j y Hm Hj _ _. assert (Ctm := Ct m Hm). assert (Cem := Ce m Hm). destruct (Cr j Hj) as [Crj Out]. destruct (Hall j Hj) as (Hi & Hx & AT & NE & HS & HT).
    destruct (facts k kok (fun q => xs q j) (x j) (fun q => os q j) (ps j) AT Hi Hx (Hp' j Hj) NE (or_intror HS)) as (AA & _ & _ & T0). specialize (T0 HS).
    assert (So := tv_inc _ _ _ _ _ Hs j Hj).
    apply (nearest_cv (fun q => tts q j) (tts' j) (fun q => ts q m + es q m * y) (ts' m + es' m * y) (fun q => near q j (ts q m + es q m * y)) (near' j (ts' m + es' m * y))
      (fun q s => flux_at (u1s q) (u2s q) (pos k (os q j) Relative (o_t0 (os q j) + s) None false) (rs q j) (o_r_star (os q j))) (fun s => flux_at u1 u2 (pos k (ps j) Relative (o_t0 (ps j) + s) None false) (rs' j) (o_r_star (ps j)))
      So HT ltac:(cv) (fun q => Hn q j _ Hj) (Hn' j _ Hj)).
    + intros ss s Cs. apply flux_tends; try assumption.
      * destruct (motion_continuous k (fun q => xs q j) (x j) (fun q => os q j) (ps j) (fun q => o_t0 (os q j) + ss q) (o_t0 (ps j) + s) (fun _ => None) None kok AT (fun q => conj (Hi q) (Hp q j Hj)) Hx (Hp' j Hj) NE (or_intror HS) ltac:(cv) ltac:(intro; reflexivity) Relative) as (A & _). exact A.
      * intro q. apply (ph_r_star _ (Hp q j Hj)).
      * apply (ph_r_star _ (Hp' j Hj)).
      * apply (tn_r_star _ _ AA).
      * intro Z. destruct (distance_law k (x j) (ps j) (o_t0 (ps j) + s) kok Hx (Hp' j Hj)) as (_ & _ & _ & [B _] & _). cbv zeta in B. eapply Rlt_le_trans; [exact Out|]. eapply Rle_trans; [exact B|].
        unfold norm, dot, apart. rewrite Z. right. f_equal. ring.
    + intros v Cc _. exact (Hmeet j _ v Hj Cc).
Qed.
