(** * Rounding errors of light curves: exposures of a KeplerianOrbit *)
From Coq Require Import Reals Lra Lia Psatz Bool List Arith ZArith.
From Coquelicot Require Import Coquelicot.
From Verif Require Import Num CoreOps Inst CoreFlux M_units M_kepler M_fin M_tensor M_simple M_limbdark Spec_orbit Spec_params Spec_array Spec_light Spec_undef Spec_dist Spec_lip Spec_accuracy Spec_float Spec_float2 Spec_float3 Spec_float5 Spec_float6
  L_real L_kepop L_light1 L_light2 L_light3 L_light5 L_light7 L_lip2 L_lip3 L_dist3 L_undef L_float L_float2 L_float3 L_float4 L_float5 L_float6 L_float13 L_float15 L_float16 L_float17 L_float18 L_float19 L_float20 L_float25 L_float26 L_float27.
Import ListNotations.
Local Notation length := List.length.
Open Scope R_scope.

Section V.
Variable u : R.
Variable rd : rounder.
Hypothesis Acc : accurate u rd.
Let U := proj1 Acc.
Local Notation exact k o t := (@get_relative_position R bool NumR k o (@kep_warp R bool NumR o) t None false).

Lemma two_prods c s x y D : Rabs c <= 101 / 100 -> Rabs s <= 101 / 100 -> Rabs x <= D -> Rabs y <= D -> Rabs (c * x + s * y) <= 202 / 100 * D.
Proof.
  intros Hc Hs Hx Hy. eapply Rle_trans; [apply Rabs_triang|]. rewrite !Rabs_mult. assert (A := Rabs_pos x). assert (B := Rabs_pos y). assert (C := Rabs_pos c). assert (E := Rabs_pos s).
  assert (Rabs c * Rabs x <= 101 / 100 * D) by (apply Rmult_le_compat; lra). assert (Rabs s * Rabs y <= 101 / 100 * D) by (apply Rmult_le_compat; lra). lra.
Qed.
Lemma rotate_lip o x y x' y' D : turned u o -> oriented u o -> Rabs (x' - x) <= D -> Rabs (y' - y) <= D ->
  near3 (@rotate_vector R bool NumR o x' y') (@rotate_vector R bool NumR o x y) (5 * D).
Proof.
  intros (Hc & Hs & HO) HE Hx Hy. assert (U' := U). assert (D0 : 0 <= D) by (eapply Rle_trans; [apply Rabs_pos|exact Hx]).
  assert (K : forall x1 y1 x2 y2 D', 0 <= D' <= 202 / 100 * D -> Rabs (x2 - x1) <= D' -> Rabs (y2 - y1) <= D' ->
     near3 (match o_Omega o with None => (x2, o_cos_incl o * y2, - o_sin_incl o * y2) | Some w => (O_cos w * x2 - O_sin w * (o_cos_incl o * y2), O_sin w * x2 + O_cos w * (o_cos_incl o * y2), - o_sin_incl o * y2) end)
       (match o_Omega o with None => (x1, o_cos_incl o * y1, - o_sin_incl o * y1) | Some w => (O_cos w * x1 - O_sin w * (o_cos_incl o * y1), O_sin w * x1 + O_cos w * (o_cos_incl o * y1), - o_sin_incl o * y1) end) (5 * D)).
  { intros x1 y1 x2 y2 D' [D1 D2] H1 H2.
    assert (Y : Rabs (o_cos_incl o * y2 - o_cos_incl o * y1) <= 101 / 100 * D').
    { replace (o_cos_incl o * y2 - o_cos_incl o * y1) with (o_cos_incl o * (y2 - y1)) by ring. rewrite Rabs_mult. apply Rmult_le_compat; try apply Rabs_pos; lra. }
    assert (Z : Rabs (- o_sin_incl o * y2 - - o_sin_incl o * y1) <= 101 / 100 * D').
    { replace (- o_sin_incl o * y2 - - o_sin_incl o * y1) with (- o_sin_incl o * (y2 - y1)) by ring. rewrite Rabs_mult, Rabs_Ropp. apply Rmult_le_compat; try apply Rabs_pos; lra. }
    unfold near3. destruct (o_Omega o) as [w|]; cbn [fst snd]; [|repeat split; lra]. destruct (HO w eq_refl) as [W1 W2].
    set (p := o_cos_incl o * y2) in *. set (q := o_cos_incl o * y1) in *. clearbody p q. split; [|split; [|lra]].
    - replace (O_cos w * x2 - O_sin w * p - (O_cos w * x1 - O_sin w * q)) with (O_cos w * (x2 - x1) + - O_sin w * (p - q)) by ring. eapply Rle_trans; [apply (two_prods _ _ _ _ (101 / 100 * D')); try lra; rewrite Rabs_Ropp; lra|lra].
    - replace (O_sin w * x2 + O_cos w * p - (O_sin w * x1 + O_cos w * q)) with (O_sin w * (x2 - x1) + O_cos w * (p - q)) by ring. eapply Rle_trans; [apply (two_prods _ _ _ _ (101 / 100 * D')); lra|lra]. }
  unfold rotate_vector. destruct (o_ecc o) as [d|] eqn:Ee.
  - destruct (HE d Ee) as (_ & C1 & S1). cbn [nmul nsub nadd nneg NumR]. apply (K _ _ _ _ (202 / 100 * D)); [lra| |].
    + replace (e_cosw d * x' - e_sinw d * y' - (e_cosw d * x - e_sinw d * y)) with (e_cosw d * (x' - x) + - e_sinw d * (y' - y)) by ring. apply two_prods; try lra. rewrite Rabs_Ropp. lra.
    + replace (e_sinw d * x' + e_cosw d * y' - (e_sinw d * x + e_cosw d * y)) with (e_sinw d * (x' - x) + e_cosw d * (y' - y)) by ring. apply two_prods; lra.
  - cbn [nmul nsub nadd nneg NumR]. apply (K _ _ _ _ D); lra.
Qed.

Lemma exact_lip k o s t : 0 < o_a o -> 0 <= o_n o -> turned u o -> oriented u o -> near3 (exact k o s) (exact k o t) (5 * (o_a o * slack o * o_n o * Rabs (s - t))).
Proof.
  intros Ha Hn HT HE. set (m t := (t - o_t0 o - o_tref o) * o_n o). assert (Em : Rabs (m s - m t) = o_n o * Rabs (s - t)) by (unfold m; replace ((s - o_t0 o - o_tref o) * o_n o - (t - o_t0 o - o_tref o) * o_n o) with (o_n o * (s - t)) by ring; rewrite Rabs_mult, (Rabs_pos_eq (o_n o)) by exact Hn; reflexivity).
  assert (Form : exists fx fy, (forall t, exact k o t = @rotate_vector R bool NumR o (fx t) (fy t)) /\ forall s t, Rabs (fx s - fx t) <= o_a o * slack o * Rabs (m s - m t) /\ Rabs (fy s - fy t) <= o_a o * slack o * Rabs (m s - m t)).
  { unfold get_relative_position, get_position, position_nodelay, true_anomaly. destruct (o_ecc o) as [d|] eqn:Ee.
    - destruct (HE d Ee) as (He & _). set (e := e_ecc d) in *. assert (Hae : Rabs e < 1) by (rewrite Rabs_pos_eq; lra).
      exists (fun t => - o_a o * (cos (ecc_anom (m t) e) - e)), (fun t => - o_a o * (sqrt (1 - e * e) * sin (ecc_anom (m t) e))). split.
      + intro t'. cbn [fst snd]. 
        match goal with |- sqz3 (@rotate_vector R bool NumR o ?X ?Y) = _ => replace X with (- o_a o * (cos (ecc_anom (m t') e) - e)); [replace Y with (- o_a o * (sqrt (1 - e * e) * sin (ecc_anom (m t') e)))|] end.
        * unfold sqz3. destruct (rotate_vector o _ _) as [[? ?] ?]. reflexivity.
        * cbn. rewrite Rplus_0_r. fold e. change ((t' - o_t0 o - o_tref o) * o_n o) with (m t'). rewrite (kepler_1ecosf (m t') e Hae). unfold kepler_sinf. assert (H1 := ecos_pos e (ecc_anom (m t') e) Hae). assert (H2 := one_m_e2_pos e Hae). field. split; lra.
        * cbn. rewrite Rplus_0_r. fold e. change ((t' - o_t0 o - o_tref o) * o_n o) with (m t'). rewrite (kepler_1ecosf (m t') e Hae). unfold kepler_cosf. assert (H1 := ecos_pos e (ecc_anom (m t') e) Hae). assert (H2 := one_m_e2_pos e Hae). field. split; lra.
      + intros s' t'. assert (L := ecc_anom_lipschitz e (m s') (m t') Hae). rewrite (Rabs_pos_eq e) in L by lra. unfold slack. rewrite Ee. fold e. set (E1 := ecc_anom (m s') e) in *. set (E2 := ecc_anom (m t') e) in *.
        assert (L' : Rabs (E1 - E2) <= / (1 - e) * Rabs (m s' - m t')). { apply (Rmult_le_reg_l (1 - e)); [lra|]. rewrite <- Rmult_assoc, Rinv_r by lra. lra. }
        assert (Sq : 0 <= sqrt (1 - e * e) <= 1). { split; [apply sqrt_pos|]. eapply Rle_trans; [apply (sqrt_le_1_alt _ 1); nra|rewrite sqrt_1; lra]. }
        replace (- o_a o * (cos E1 - e) - - o_a o * (cos E2 - e)) with (- o_a o * (cos E1 - cos E2)) by ring.
        replace (- o_a o * (sqrt (1 - e * e) * sin E1) - - o_a o * (sqrt (1 - e * e) * sin E2)) with (- o_a o * (sqrt (1 - e * e) * (sin E1 - sin E2))) by ring.
        rewrite !Rabs_mult, Rabs_Ropp, (Rabs_pos_eq (o_a o)), (Rabs_pos_eq (sqrt _)) by lra. rewrite Rmult_assoc.
        split; apply Rmult_le_compat_l; try lra; (eapply Rle_trans; [|exact L']).
        * apply cos_lip.
        * eapply Rle_trans; [|apply sin_lipschitz]. assert (Q := Rabs_pos (sin E1 - sin E2)). nra.
    - exists (fun t => - o_a o * cos (m t)), (fun t => - o_a o * sin (m t)). split.
      + intro t'. cbn [fst snd]. unfold sqz3. cbn [nsqz NumR nmul nneg nsin ncos nsub]. change ((@kep_warp R bool NumR o true t' - o_tref o) * o_n o) with (m t'). destruct (rotate_vector o _ _) as [[? ?] ?]. reflexivity.
      + intros s' t'. unfold slack. rewrite Ee. replace (/ (1 - 0)) with 1 by field. rewrite Rmult_1_r.
        replace (- o_a o * cos (m s') - - o_a o * cos (m t')) with (- o_a o * (cos (m s') - cos (m t'))) by ring. replace (- o_a o * sin (m s') - - o_a o * sin (m t')) with (- o_a o * (sin (m s') - sin (m t'))) by ring.
        rewrite !Rabs_mult, Rabs_Ropp, (Rabs_pos_eq (o_a o)) by lra. split; apply Rmult_le_compat_l; try lra; [apply cos_lip|apply sin_lipschitz]. }
  destruct Form as (fx & fy & HF & HL). rewrite !HF. destruct (HL s t) as [L1 L2]. rewrite Em in L1, L2. replace (o_a o * slack o * o_n o * Rabs (s - t)) with (o_a o * slack o * (o_n o * Rabs (s - t))) by ring. apply rotate_lip; assumption.
Qed.

Lemma near3_trans p q r E E' : near3 p q E -> near3 q r E' -> near3 p r (E + E').
Proof.
  intros (A1 & A2 & A3) (B1 & B2 & B3). unfold near3. destruct p as [[p1 p2] p3], q as [[q1 q2] q3], r as [[r1 r2] r3]. cbn [fst snd] in *.
  split; [|split]; [replace (p1 - r1) with ((p1 - q1) + (q1 - r1)) by ring|replace (p2 - r2) with ((p2 - q2) + (q2 - r2)) by ring|replace (p3 - r3) with ((p3 - q3) + (q3 - r3)) by ring]; (eapply Rle_trans; [apply Rabs_triang|lra]).
Qed.
Lemma near3_le p q E E' : near3 p q E -> E <= E' -> near3 p q E'.
Proof. intros (A1 & A2 & A3) H. unfold near3. repeat split; lra. Qed.

Lemma swing_moves o s t d : 0 <= o_n o -> Rabs (s - t) <= d -> swing o s <= swing o t + o_n o * d.
Proof.
  intros Hn Hd. unfold swing. assert (A := Rabs_triang (s - t) (t - o_t0 o)). replace (s - t + (t - o_t0 o)) with (s - o_t0 o) in A by ring. nra.
Qed.

Hypothesis Zero : exact_zero rd.
Variable eps : R.
Variable F : FluxOp.
Hypothesis HF : solves eps F.
Variables u1 u2 : R.
Hypothesis Hlaw : physical_law (intensity u1 u2).
Let law := proj1 (law_iff u1 u2) Hlaw.
Variable k : consts.
Hypothesis kok : consts_ok k.
Local Notation NR := (rounded rd).
Local Notation place o t := (@get_relative_position R bool NR k o (@kep_warp R bool NR o) t None false).

Lemma shift_pos t e : 0 <= time_shift u t e.
Proof. unfold time_shift. assert (U' := U). assert (A := Rabs_pos t). assert (B := Rabs_pos e). apply Rmult_le_pos; lra. Qed.
Lemma swing_during x o t e y s : machine_orbit u rd k x o -> -1/2 <= y <= 1/2 -> Rabs (s - (t + e * y)) <= time_shift u t e -> swing o s <= exposure_swing u o t e.
Proof.
  intros [Hi Hs Hc He Hsn Hcs Hw] Hy Hd. unfold exposure_swing. apply swing_moves; [exact (n_positive u rd Acc k x o kok Hi Hs)|].
  replace (s - t) with ((s - (t + e * y)) + e * y) by ring. eapply Rle_trans; [apply Rabs_triang|]. rewrite Rabs_mult. assert (A := Rabs_pos e). assert (Rabs y <= 1) by (apply Rabs_le; lra). nra.
Qed.
Lemma precise_during x o t e y s r : machine_orbit u rd k x o -> -1/2 <= y <= 1/2 -> Rabs (s - (t + e * y)) <= time_shift u t e -> far_exposed u o r t e ->
  u * slack o * (6 + 8 * (slack o ^ 3 * swing o s)) <= 1 / 10.
Proof.
  intros HM Hy Hd [Sm _]. assert (W := swing_during x o t e y s HM Hy Hd). destruct HM as [Hi Hs Hc He Hsn Hcs Hw]. assert (O := init_oriented u rd Acc k x o Hi He Hsn Hcs). assert (Sl := slack_1 u o O).
  eapply Rle_trans; [|exact Sm]. assert (U' := U). apply Rmult_le_compat_l; [apply Rmult_le_pos; lra|]. assert (0 <= slack o ^ 3) by (apply pow_le; lra). nra.
Qed.
Lemma exposed_point x o t e y s r : machine_orbit u rd k x o -> 0 <= r -> -1/2 <= y <= 1/2 -> Rabs (s - (t + e * y)) <= time_shift u t e -> far_exposed u o r t e ->
  Rabs (flux_at u1 u2 (place o s) r (o_r_star o) - flux_at u1 u2 (exact k o (t + e * y)) r (o_r_star o)) <= 32 * (r / o_r_star o * (2 * exposure_error u o t e / o_r_star o)).
Proof.
  intros HM Hr Hy Hd Far. assert (Sm := precise_during x o t e y s r HM Hy Hd Far). assert (W := swing_during x o t e y s HM Hy Hd). destruct HM as [Hi Hs Hc He Hsn Hcs Hw]. destruct Far as [_ Far].
  assert (M := proj1 (proj1 (motion u rd Acc k x o kok Hi Hs Zero Hc He Hsn Hcs) s Sm)).
  assert (O := init_oriented u rd Acc k x o Hi He Hsn Hcs). assert (T := init_turned u rd Acc k x o Hi Hc). assert (Hn := n_positive u rd Acc k x o kok Hi Hs). assert (Sl := slack_1 u o O). destruct Hs as (Ha & _ & Hst & _).
  assert (U' := U). assert (S3 : 0 <= slack o ^ 3) by (apply pow_le; lra). assert (As : 0 <= o_a o * slack o) by (apply Rmult_le_pos; lra).
  assert (N1 : near3 (place o s) (exact k o (t + e * y)) (exposure_error u o t e)).
  { eapply near3_le; [eapply near3_trans; [exact M|exact (exact_lip k o s (t + e * y) Ha Hn T O)]|]. unfold exposure_error. apply Rplus_le_compat.
    - apply Rmult_le_compat_l; [|nra]. replace (210 * u * o_a o * slack o) with (210 * u * (o_a o * slack o)) by ring. apply Rmult_le_pos; lra.
    - apply Rmult_le_compat_l; [lra|]. apply Rmult_le_compat_l; [|exact Hd]. apply Rmult_le_pos; assumption. }
  apply (flux_stable u1 u2 law r (o_r_star o) Hr Hst _ _ (exposure_error u o t e) (o_a o / slack o) N1).
  - destruct N1 as (N1 & _). eapply Rle_trans; [apply Rabs_pos|exact N1].
  - apply Rdiv_le_0_compat; lra.
  - apply (exact_distance u k o (t + e * y) Ha O); [exact (init_inclination u rd Acc k x o Hi)|exact (init_periastron u rd Acc k x o Hi Hw)|exact (init_node u rd Acc k x o Hi)].
  - exact Far.
Qed.

Variables (n : nat) (o : orbit tens) (xs : nat -> kargs R) (os : nat -> orbit R) (mask : tens -> tens -> option tens -> bool -> res (list nat)).
Hypothesis HO : array_orbit n o os.
Hypothesis HM : forall j, (j < n)%nat -> machine_orbit u rd k (xs j) (os j).
Variables (r : tens) (rs : nat -> R).
Hypothesis Hr : elements n r rs.
Hypothesis Pr : forall j, (j < n)%nat -> 0 <= rs j.
Variables (N : nat) (t : tens) (ts : nat -> R).
Hypothesis Ht : is_vector N t.
Hypothesis Vt : forall m, (m < N)%nat -> aget t (at_time m) = Fin (ts m).
Local Notation rst j := (o_r_star (os j)).
Let Pst j (Hj : (j < n)%nat) : 0 < rst j := proj1 (proj2 (proj2 (mo_sizes _ _ _ _ _ (HM j Hj)))).

Local Notation row texp_ nodes_ weights_ j_ t_ e_ := (rowM rd F (computed_law rd u1 u2) (fun j t => placeF rd k (os j) t) (fun j => Fin (rst j)) r texp_ nodes_ weights_ j_ t_ e_).
Lemma row_none nodes weights j t0 e0 : (j < n)%nat -> far_enough u (os j) (rs j) t0 -> exists w, row None nodes weights j (Fin t0) e0 = Fin w /\
  Rabs (w - flux_at u1 u2 (exact k (os j) t0) (rs j) (rst j)) <= flux_error u eps + distance_error u (rs j / rst j) (2 * motion_error u (os j) t0 / rst j).
Proof.
  intros Hj Fr. destruct Hr as ((sr & Sr & Prr) & Vr). cbn [rowM].
  destruct (flux_point u eps rd Acc F HF u1 u2 law (fun j t => place (os j) t) (fun j => rst j) rs j t0 (Pst j Hj) (Pr j Hj)) as (w & Ew & Dw). exists w. split.
  - rewrite <- Ew. unfold fluxM. rewrite Vr by exact Hj. rewrite (machine_finite u rd Acc Zero k kok (xs j) (os j) (rs j) t0 (HM j Hj) Fr). reflexivity.
  - assert (S := machine_point u rd Acc Zero u1 u2 Hlaw k kok (xs j) (os j) (rs j) t0 (HM j Hj) (Pr j Hj) Fr). cbv beta in Dw.
    set (f1 := flux_at u1 u2 (place (os j) t0) (rs j) (rst j)) in *. set (f2 := flux_at u1 u2 (exact k (os j) t0) (rs j) (rst j)) in *. clearbody f1 f2.
    replace (w - f2) with ((w - f1) + (f1 - f2)) by ring. eapply Rle_trans; [apply Rabs_triang|]. unfold distance_error in *. set (q := 2 * _ / _) in *. clearbody q. lra.
Qed.
Lemma row_exposed texp osam order nodes weights j t0 e0 : stencil osam order = Ok (nodes, weights) -> (j < n)%nat -> far_exposed u (os j) (rs j) t0 e0 -> exists w, row (Some texp) nodes weights j (Fin t0) (Fin e0) = Fin w /\
  Rabs (w - node_mean nodes weights (fun s => flux_at u1 u2 (exact k (os j) s) (rs j) (rst j)) t0 e0) <=
    mean_error u (length nodes) (flux_error u eps + distance_error u (rs j / rst j) 0) + 32 * (rs j / rst j * (2 * exposure_error u (os j) t0 e0 / rst j)).
Proof.
  intros St Hj Fr. destruct Hr as ((sr & Sr & Prr) & Vr). destruct (quadrature _ _ _ _ St) as (_ & _ & _ & _ & _ & Nx & _). rewrite Forall_forall in Nx. cbn [rowM].
    destruct (mean_point u eps rd Acc F HF u1 u2 law (fun j t => place (os j) t) (fun j => rst j) rs nodes weights osam order j t0 e0 (fun s => flux_at u1 u2 (exact k (os j) s) (rs j) (rst j))
      (32 * (rs j / rst j * (2 * exposure_error u (os j) t0 e0 / rst j))) St (Pst j Hj) (Pr j Hj)) as (w & Ew & Dw).
    { intros y s Hy Hs. apply (exposed_point (xs j)); [exact (HM j Hj)|exact (Pr j Hj)|exact (Nx y Hy)|exact Hs|exact Fr]. }
    exists w. split; [|exact Dw]. rewrite <- Ew. unfold meanM. f_equal. apply map_ext_in. intros q Hq. apply in_seq in Hq. f_equal. unfold fluxM. rewrite Vr by exact Hj.
    match goal with |- context [placeF rd k (os j) ?T] => assert (ET : placeF rd k (os j) T = fin3 (place (os j) (value T))) end.
    { cbn [nadd nmul nlit rounded_fl rnd fadd fmul value]. apply (placeF_is u rd Acc Zero k (os j)).
      - destruct (HM j Hj) as [Hi Hs Hc He0 Hsn Hcs Hw]. exact (init_oriented u rd Acc k (xs j) (os j) Hi He0 Hsn Hcs).
      - destruct (HM j Hj) as [Hi Hs Hc He0 Hsn Hcs Hw]. exact (n_positive u rd Acc k (xs j) (os j) kok Hi Hs).
      - apply (precise_during (xs j) (os j) t0 e0 (nth q nodes 0) _ (rs j) (HM j Hj)); [apply Nx, nth_In; lia| |exact Fr]. apply (node_time u rd Acc). apply Nx, nth_In. lia. }
    rewrite ET. reflexivity.
Qed.
Lemma kepler_curve_exposures e es osam order nodes weights : exposures N e es -> stencil osam order = Ok (nodes, weights) ->
  (forall m j, (m < N)%nat -> (j < n)%nat -> far_exposed u (os j) (rs j) (ts m) (es m)) ->
  table_near n N (computed_curve rd F u1 u2 (Some (computed_kepler rd k o mask)) (Some r) (Some t) (Some e) osam order (Some false) false)
    (fun m j => node_mean nodes weights (fun s => flux_at u1 u2 (exact k (os j) s) (rs j) (rst j)) (ts m) (es m))
    (fun m j => mean_error u (length nodes) (flux_error u eps + distance_error u (rs j / rst j) 0) + 32 * (rs j / rst j * (2 * exposure_error u (os j) (ts m) (es m) / rst j))).
Proof.
  intros He St Far. destruct (proj1 Hr) as (sr & Sr & Prr). destruct (kepler_answersQ rd k n o os mask HO) as [HA HS].
  assert (Ft : forall m, (m < N)%nat -> finite (aget t (at_time m))) by (intros m Hm; exists (ts m); apply Vt; exact Hm).
  assert (He' : exposure_values N (Some e) (fun m => Fin (es m))).
  { destruct He as [We [[Se Ve]|[Se Ve]]]; (split; [exact We|]); [left|right]; (split; [exact Se|]); intros; symmetry; auto. }
  destruct (plainM rd F (computed_law rd u1 u2) (computed_kepler rd k o mask) false n _ _ HA HS r sr Sr Prr N t (Some e) (fun m => Fin (es m)) osam order nodes weights Ht Ft
    (fun m _ => ex_intro _ (es m) eq_refl) He' St) as (X & EX & SX & VX).
  assert (G : forall m j, (m < N)%nat -> (j < n)%nat -> exists w, aget X (at_tp m j) = Fin w /\ Rabs (w - node_mean nodes weights (fun s => flux_at u1 u2 (exact k (os j) s) (rs j) (rst j)) (ts m) (es m)) <=
    mean_error u (length nodes) (flux_error u eps + distance_error u (rs j / rst j) 0) + 32 * (rs j / rst j * (2 * exposure_error u (os j) (ts m) (es m) / rst j))).
  { intros m j Hm Hj. rewrite VX by assumption. rewrite Vt by exact Hm. apply (row_exposed e osam order); [exact St|exact Hj|exact (Far m j Hm Hj)]. }
  exists X, (fun m j => value (aget X (at_tp m j))). split; [exact EX|]. split.
  - split; [exact SX|]. intros m j Hm Hj. destruct (G m j Hm Hj) as (w & -> & _). reflexivity.
  - intros m j Hm Hj. destruct (G m j Hm Hj) as (w & -> & Dw). exact Dw.
Qed.

(** with a mask *)
Lemma kepler_masked osam order nodes weights e ev inds (f d : nat -> nat -> R) : stencil osam order = Ok (nodes, weights) -> exposure_values N e (fun m => Fin (ev m)) -> single e ->
  (forall a, elements n a rs -> mask t a e false = Ok inds) -> (forall m, In m inds -> (m < N)%nat) ->
  (forall m j, (m < N)%nat -> (j < n)%nat -> In m inds -> exists w, row e nodes weights j (Fin (ts m)) (Fin (ev m)) = Fin w /\ Rabs (w - f m j) <= d m j) ->
  exists X v, computed_curve rd F u1 u2 (Some (computed_kepler rd k o mask)) (Some r) (Some t) e osam order None false = Ok X /\ light_table n N X v /\
    forall m j, (m < N)%nat -> (j < n)%nat -> (In m inds -> Rabs (v m j - f m j) <= d m j) /\ (~ In m inds -> v m j = 0).
Proof.
  intros St He' H1 Hmask Hb HW. destruct (proj1 Hr) as (sr & Sr & Prr). destruct (kepler_answersQ rd k n o os mask HO) as [HA HS].
  assert (Ft : forall m, (m < N)%nat -> finite (aget t (at_time m))) by (intros m Hm; exists (ts m); apply Vt; exact Hm).
  assert (Er : elements n (areshape (rmap (fun s => [prod s]) (ash r)) r) rs).
  { split; [exists [n]; split; [exact (rM_sh n r sr Sr Prr)|cbn; lia]|]. intros q Hq. unfold Spec_light.flat. rewrite (rM_sh n r sr Sr Prr). assert (E0 : unlin [n] q O = q) by (cbn; apply Nat.mod_small; exact Hq). rewrite (rM_val n r sr Sr Prr) by (rewrite E0; exact Hq). rewrite E0. exact (proj2 Hr q Hq). }
  destruct (maskedM rd F (zero_u u rd Acc) (computed_law rd u1 u2) (computed_kepler rd k o mask) false n _ _ HA HS r sr Sr Prr N t e (fun m => Fin (ev m)) osam order nodes weights Ht Ft
    (fun m _ => ex_intro _ (ev m) eq_refl) He' St H1 inds (Hmask _ Er) Hb) as (X & EX & SX & VX).
  exists X, (fun m j => value (aget X (at_tp m j))). split; [exact EX|].
  assert (K : forall m j, (m < N)%nat -> (j < n)%nat -> exists w, aget X (at_tp m j) = Fin w /\ (In m inds -> Rabs (w - f m j) <= d m j) /\ (~ In m inds -> w = 0)).
  { intros m j Hm Hj. destruct (VX m j Hm Hj) as [V1 V2]. destruct (in_dec Nat.eq_dec m inds) as [I|I].
    - destruct (HW m j Hm Hj I) as (w & Ew & Dw). exists w. rewrite (V1 I), Vt by exact Hm. split; [exact Ew|]. split; [intros _; exact Dw|contradiction].
    - exists 0. split; [apply V2; exact I|]. split; [contradiction|reflexivity]. }
  split.
  - split; [exact SX|]. intros m j Hm Hj. destruct (K m j Hm Hj) as (w & -> & _). reflexivity.
  - intros m j Hm Hj. destruct (K m j Hm Hj) as (w & -> & Q). exact Q.
Qed.
End V.
