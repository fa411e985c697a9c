(** * What light curves determine: both kinds of orbit *)
From Coq Require Import Reals Lra Lia Psatz List Bool Arith ZArith.
From Coquelicot Require Import Coquelicot.
From Verif Require Import Num CoreOps Inst CoreFlux M_units M_kepler M_fin M_tensor M_limbdark M_simple Spec_orbit Spec_params Spec_array Spec_simple Spec_light Spec_depth Spec_curve Spec_curve2
  L_real L_orbit L_params3 L_flux L_simple L_simple2 L_transit L_light1 L_light3 L_light4 L_light7 L_light8 L_area L_depth L_depth2 L_depth3 L_depth4 L_curve L_curve2 L_curve3 L_lens L_pass L_pass2.
Open Scope R_scope.

Lemma lit_shines u1 u2 : lit u1 u2 -> shining u1 u2.
Proof. intros [Hk Hi] mu Hm. assert (Q := Hk 0 mu ltac:(lra) ltac:(lra)). lra. Qed.
Lemma ratio_of u1 u2 p Rs r t0 P w s p' Rs' r' t0' P' w' s' b b' : passes p Rs r t0 P w s -> passes p' Rs' r' t0' P' w' s' -> s 0 = Rabs b * Rs -> s' 0 = Rabs b' * Rs' ->
  (forall t, flux_at u1 u2 (p t) r Rs = flux_at u1 u2 (p' t) r' Rs') -> ratio_shown u1 u2 b Rs r b' Rs' r' -> r' / Rs' = r / Rs.
Proof.
  intros H H' E0 E0' E [h|(-> & -> & [[h1 h2]|[h|h]])]; [exact h| | |].
  - apply (pass_ratio _ _ _ _ _ _ _ H _ _ _ _ _ _ _ H' E); lra.
  - apply (pass_ratio _ _ _ _ _ _ _ H _ _ _ _ _ _ _ H' E); [lra|]. apply (pass_full _ _ _ _ _ _ _ H _ _ _ _ _ _ _ H' E). lra.
  - apply (pass_ratio _ _ _ _ _ _ _ H _ _ _ _ _ _ _ H' E); [|lra]. apply (pass_full _ _ _ _ _ _ _ H' _ _ _ _ _ _ _ H (fun t => eq_sym (E t))). lra.
Qed.
Lemma sqrt_ratio u u' c c' : 0 < c -> 0 < c' -> 0 <= u -> 0 <= u' -> sqrt u' / c' = sqrt u / c -> u' / (c' * c') = u / (c * c).
Proof.
  intros Hc Hc' Hu Hu' E. rewrite <- (sqrt_sqrt u Hu), <- (sqrt_sqrt u' Hu') at 1. replace (sqrt u' * sqrt u' / (c' * c')) with (sqrt u' / c' * (sqrt u' / c')) by (field; lra). rewrite E. rewrite sqrt_sqrt by exact Hu. rewrite <- (sqrt_sqrt u Hu) at 3. field. lra.
Qed.
(** a straight line through two points *)
Lemma line_two m m' n n' y1 y2 : y1 <> y2 -> m' * y1 + n' = m * y1 + n -> m' * y2 + n' = m * y2 + n -> m' = m /\ n' = n.
Proof. intros H E1 E2. assert (Q : (m' - m) * (y1 - y2) = 0) by lra. apply Rmult_integral in Q. destruct Q as [Q|Q]; [|lra]. assert (m' = m) by lra. subst m'. split; [reflexivity|lra]. Qed.

Section KK.
Variables (k : consts) (x x' : kargs R) (o o' : orbit R) (r r' : R).
Hypothesis kok : consts_ok k.
Hypothesis Ho : kep_init k x = Ok o.
Hypothesis ph : physical o.
Hypothesis tr : transiting o r.
Hypothesis Ho' : kep_init k x' = Ok o'.
Hypothesis ph' : physical o'.
Hypothesis tr' : transiting o' r'.
Lemma kep_away_sq (q : orbit R) c d : physical q -> transiting q c -> 0 <= (o_a q * o_a q - o_b q * o_b q * (o_r_star q * o_r_star q)) * (sin (2 * PI * d / o_period q) * sin (2 * PI * d / o_period q)) + o_b q * o_b q * (o_r_star q * o_r_star q).
Proof. intros Hq Tq. destruct (sizes q c Hq Tq) as (S1 & S2 & _). assert (Z := Rle_0_sqr (sin (2 * PI * d / o_period q))). unfold Rsqr in Z. assert (Z' := Rmult_le_pos _ _ (Rlt_le _ _ S1) Z). lra. Qed.
Lemma kk_geometry u1 u2 : lit u1 u2 -> ratio_shown u1 u2 (o_b o) (o_r_star o) r (o_b o') (o_r_star o') r' ->
  (forall t, flux_at u1 u2 (pos k o Relative t None false) r (o_r_star o) = flux_at u1 u2 (pos k o' Relative t None false) r' (o_r_star o')) ->
  same_times o o' /\ r' / o_r_star o' = r / o_r_star o /\ Rabs (o_b o') = Rabs (o_b o) /\ o_a o' / o_r_star o' = o_a o / o_r_star o.
Proof.
  intros Hl Sh E. destruct (kep_passes k x o r kok Ho ph tr) as [H1 H2]. destruct (kep_passes k x' o' r' kok Ho' ph' tr') as [H1' H2'].
  assert (Er := ratio_of u1 u2 _ _ _ _ _ _ _ _ _ _ _ _ _ _ _ _ H1 H1' (kep_away0 o ph) (kep_away0 o' ph') E Sh).
  destruct (pass_times _ _ _ _ _ _ _ H1 _ _ _ _ _ _ _ H1' u1 u2 (lit_shines _ _ Hl) E) as (EP & Ew & Et). destruct (pass_shape _ _ _ _ _ _ _ H1 _ _ _ _ _ _ _ H1' u1 u2 (lit_shines _ _ Hl) E (proj1 Hl) (proj2 Hl) Er H2 H2') as (d0 & D0 & F).
  split; [split; assumption|]. split; [exact Er|]. assert (HP := ph_period _ ph). assert (Hpi := PI_RGT_0). assert (HR := ph_r_star _ ph). assert (HR' := ph_r_star _ ph'). assert (Ha := ph_a _ ph). assert (Ha' := ph_a _ ph').
  set (w := half_time o (o_r_star o + r)) in *. assert (W : w < o_period o / 4). { destruct (sizes o r ph tr) as (S1 & S2 & S3 & S4). assert (Hr := tr_radius _ _ tr). apply (half_range o r ph tr (o_r_star o + r)); lra. }
  set (y := fun d => sin (2 * PI * d / o_period o) * sin (2 * PI * d / o_period o)).
  assert (L : forall d, d0 < d < w -> (o_a o' / o_r_star o' * (o_a o' / o_r_star o') - o_b o' * o_b o') * y d + o_b o' * o_b o' = (o_a o / o_r_star o * (o_a o / o_r_star o) - o_b o * o_b o) * y d + o_b o * o_b o).
  { intros d Hd. specialize (F d Hd). unfold kep_away in F. apply sqrt_ratio in F; try assumption; [|apply (kep_away_sq o r d ph tr)|apply (kep_away_sq o' r' d ph' tr')]. rewrite EP in F. fold (y d) in F.
    transitivity (((o_a o' * o_a o' - o_b o' * o_b o' * (o_r_star o' * o_r_star o')) * y d + o_b o' * o_b o' * (o_r_star o' * o_r_star o')) / (o_r_star o' * o_r_star o')); [field; lra|]. rewrite F. field. lra. }
  set (d1 := d0 + (w - d0) / 3). set (d2 := d0 + 2 * (w - d0) / 3). assert (X1 : d0 < d1 < w) by (unfold d1; lra). assert (X2 : d0 < d2 < w) by (unfold d2; lra). assert (X : d1 < d2) by (unfold d1, d2; lra).
  assert (Y : y d1 <> y d2).
  { assert (T : forall e, 0 < e < o_period o / 4 -> 0 < 2 * PI * e / o_period o < PI / 2). { intros e He. replace (2 * PI * e / o_period o) with (2 * PI / o_period o * e) by (field; lra). assert (K : 0 < 2 * PI / o_period o) by (apply Rdiv_lt_0_compat; lra). split; [apply Rmult_lt_0_compat; lra|]. replace (PI / 2) with (2 * PI / o_period o * (o_period o / 4)) by (field; lra). apply Rmult_lt_compat_l; lra. }
    assert (T1 := T d1 ltac:(lra)). assert (T2 := T d2 ltac:(lra)). assert (Lt : 2 * PI * d1 / o_period o < 2 * PI * d2 / o_period o). { unfold Rdiv. apply Rmult_lt_compat_r; [apply Rinv_0_lt_compat; lra|]. apply Rmult_lt_compat_l; lra. }
    assert (Si := sin_increasing_1 (2 * PI * d1 / o_period o) (2 * PI * d2 / o_period o) ltac:(lra) ltac:(lra) ltac:(lra) ltac:(lra) Lt). assert (S0 := sin_gt_0 (2 * PI * d1 / o_period o) ltac:(lra) ltac:(lra)). unfold y. nra. }
  destruct (line_two _ _ _ _ _ _ Y (L d1 X1) (L d2 X2)) as [G1 G2]. split; [apply Rsqr_eq_abs_0; exact G2|].
  assert (0 < o_a o / o_r_star o) by (apply Rdiv_lt_0_compat; assumption). assert (0 < o_a o' / o_r_star o') by (apply Rdiv_lt_0_compat; assumption). rewrite G2 in G1. nra.
Qed.
End KK.

Section SS.
Variables (x x' : sargs R) (r r' : R).
Hypothesis cr : crossing x r.
Hypothesis cr' : crossing x' r'.
Lemma away_sq (y : sargs R) d : 0 <= sspeed y * d * (sspeed y * d) + dflt 0 (sa_b y) * dflt 1 (sa_r_star y) * (dflt 0 (sa_b y) * dflt 1 (sa_r_star y)).
Proof. assert (Z1 := Rle_0_sqr (sspeed y * d)). assert (Z2 := Rle_0_sqr (dflt 0 (sa_b y) * dflt 1 (sa_r_star y))). unfold Rsqr in Z1, Z2. lra. Qed.
Lemma ss_times u1 u2 u1' u2' : shining u1 u2 -> shining u1' u2' ->
  (forall t, flux_at u1 u2 (spos x t) r (dflt 1 (sa_r_star x)) = flux_at u1' u2' (spos x' t) r' (dflt 1 (sa_r_star x'))) ->
  same_simple_times x x' /\ sa_duration x' * dimmed_part x' r' = sa_duration x * dimmed_part x r.
Proof.
  intros Hs Hs' E. destruct (pass_windows _ _ _ _ _ _ _ (simple_passes x r cr) _ _ _ _ _ _ _ (simple_passes x' r' cr') u1 u2 u1' u2' Hs Hs' E) as (EP & Ew & Et). split; [split; assumption|].
  rewrite (simple_w x' r' cr'), (simple_w x r cr) in Ew. lra.
Qed.
Lemma ss_geometry u1 u2 : lit u1 u2 -> matched x r -> matched x' r' -> ratio_shown u1 u2 (dflt 0 (sa_b x)) (dflt 1 (sa_r_star x)) r (dflt 0 (sa_b x')) (dflt 1 (sa_r_star x')) r' ->
  (forall t, flux_at u1 u2 (spos x t) r (dflt 1 (sa_r_star x)) = flux_at u1 u2 (spos x' t) r' (dflt 1 (sa_r_star x'))) ->
  same_simple_times x x' /\ sa_duration x' = sa_duration x /\ dflt 0 (sa_ror x') = dflt 0 (sa_ror x) /\ Rabs (dflt 0 (sa_b x')) = Rabs (dflt 0 (sa_b x)).
Proof.
  intros Hl M M' Sh E. assert (H1 := simple_passes x r cr). assert (H1' := simple_passes x' r' cr'). destruct (ss_times u1 u2 u1 u2 (lit_shines _ _ Hl) (lit_shines _ _ Hl) E) as [T ED]. rewrite (matched_part x r cr M), (matched_part x' r' cr' M'), !Rmult_1_r in ED.
  assert (Er := ratio_of u1 u2 _ _ _ _ _ _ _ _ _ _ _ _ _ _ _ _ H1 H1' (simple_away0 x r cr) (simple_away0 x' r' cr') E Sh).
  destruct (pass_times _ _ _ _ _ _ _ H1 _ _ _ _ _ _ _ H1' u1 u2 (lit_shines _ _ Hl) E) as (EP & Ew & Et). destruct (pass_shape _ _ _ _ _ _ _ H1 _ _ _ _ _ _ _ H1' u1 u2 (lit_shines _ _ Hl) E (proj1 Hl) (proj2 Hl) Er (simple_reaches x r cr M) (simple_reaches x' r' cr' M')) as (d0 & D0 & F).
  assert (HR := so_r_star _ (cr_ok _ _ cr)). assert (HR' := so_r_star _ (cr_ok _ _ cr')). split; [exact T|]. split; [exact ED|].
  split. { unfold matched in M, M'. rewrite M, M' in Er. transitivity (dflt 0 (sa_ror x') * dflt 1 (sa_r_star x') / dflt 1 (sa_r_star x')); [field; lra|]. rewrite Er. field. lra. }
  set (w := Rmin (sa_duration x / 2) (reach x (dflt 1 (sa_r_star x) + r))) in *.
  assert (L : forall d, d0 < d < w -> sspeed x' / dflt 1 (sa_r_star x') * (sspeed x' / dflt 1 (sa_r_star x')) * (d * d) + dflt 0 (sa_b x') * dflt 0 (sa_b x') = sspeed x / dflt 1 (sa_r_star x) * (sspeed x / dflt 1 (sa_r_star x)) * (d * d) + dflt 0 (sa_b x) * dflt 0 (sa_b x)).
  { intros d Hd. specialize (F d Hd). unfold simple_away in F. apply sqrt_ratio in F; try assumption; try apply away_sq.
    transitivity ((sspeed x' * d * (sspeed x' * d) + dflt 0 (sa_b x') * dflt 1 (sa_r_star x') * (dflt 0 (sa_b x') * dflt 1 (sa_r_star x'))) / (dflt 1 (sa_r_star x') * dflt 1 (sa_r_star x'))); [field; lra|]. rewrite F. field. lra. }
  set (d1 := d0 + (w - d0) / 3). set (d2 := d0 + 2 * (w - d0) / 3). assert (X1 : d0 < d1 < w) by (unfold d1; lra). assert (X2 : d0 < d2 < w) by (unfold d2; lra). assert (X : d1 < d2) by (unfold d1, d2; lra).
  destruct (line_two _ _ _ _ (d1 * d1) (d2 * d2) ltac:(nra) (L d1 X1) (L d2 X2)) as [_ G2]. apply Rsqr_eq_abs_0; exact G2.
Qed.
(** conversely nothing else matters *)
Lemma ss_enough (y y' : sargs R) c c' u1 u2 : simple_ok y -> simple_ok y' -> same_simple_times y y' -> sa_duration y' = sa_duration y -> dflt 0 (sa_ror y') = dflt 0 (sa_ror y) -> Rabs (dflt 0 (sa_b y')) = Rabs (dflt 0 (sa_b y)) -> c' / dflt 1 (sa_r_star y') = c / dflt 1 (sa_r_star y) ->
  forall t, flux_at u1 u2 (spos y t) c (dflt 1 (sa_r_star y)) = flux_at u1 u2 (spos y' t) c' (dflt 1 (sa_r_star y')).
Proof.
  intros ok ok' [EP [z Et]] ED Eq Eb Ec t. assert (HR := so_r_star _ ok). assert (HR' := so_r_star _ ok'). assert (HD := so_duration _ ok). assert (HP := so_period _ ok).
  assert (Es : sdt y' t = sdt y t).
  { unfold sdt. rewrite EP, Et. replace (t - (dflt 0 (sa_t0 y) - 0.5 * sa_period y)) with (t - (dflt 0 (sa_t0 y) + IZR z * sa_period y - 0.5 * sa_period y) + IZR z * sa_period y) by ring. rewrite Rmodulo_add_mult by lra. reflexivity. }
  assert (Eb2 : dflt 0 (sa_b y') * dflt 0 (sa_b y') = dflt 0 (sa_b y) * dflt 0 (sa_b y)) by (apply Rsqr_eq_asb_1 in Eb; exact Eb).
  assert (Sp : forall u : sargs R, simple_ok u -> sspeed u / dflt 1 (sa_r_star u) * (sspeed u / dflt 1 (sa_r_star u)) = 4 * ((1 + dflt 0 (sa_ror u)) * (1 + dflt 0 (sa_ror u)) - dflt 0 (sa_b u) * dflt 0 (sa_b u)) / (sa_duration u * sa_duration u)).
  { intros u ou. assert (h := so_r_star _ ou). assert (h' := so_duration _ ou). assert (Q := sspeed_sq u ou). transitivity (sspeed u * sspeed u * (sa_duration u * sa_duration u) / (dflt 1 (sa_r_star u) * dflt 1 (sa_r_star u) * (sa_duration u * sa_duration u))); [field; lra|]. rewrite Q. field. lra. }
  assert (Ev : sspeed y' / dflt 1 (sa_r_star y') * (sspeed y' / dflt 1 (sa_r_star y')) = sspeed y / dflt 1 (sa_r_star y) * (sspeed y / dflt 1 (sa_r_star y))) by (rewrite !Sp, Eb2, ED, Eq by assumption; reflexivity).
  rewrite !spos_eq. unfold flux_at, vx, vy, vz. cbn [fst snd]. rewrite Es, ED, Ec.
  assert (Ap : forall u : sargs R, 0 < dflt 1 (sa_r_star u) -> forall d, sqrt (sspeed u * d * (sspeed u * d) + (dflt 0 (sa_b u) * dflt 1 (sa_r_star u) + 0) * (dflt 0 (sa_b u) * dflt 1 (sa_r_star u) + 0)) / dflt 1 (sa_r_star u) = sqrt (sspeed u / dflt 1 (sa_r_star u) * (sspeed u / dflt 1 (sa_r_star u)) * (d * d) + dflt 0 (sa_b u) * dflt 0 (sa_b u))).
  { intros u h d. rewrite <- (sqrt_square (dflt 1 (sa_r_star u))) at 3 by lra. rewrite <- sqrt_div_alt by (apply Rmult_lt_0_compat; exact h). f_equal. field. lra. }
  rewrite !Ap, Ev, Eb2 by assumption. unfold rel_flux.
  assert (Sg : forall g : bool, (0 < (if g then 1 else - (1)) / dflt 1 (sa_r_star y) <-> g = true) /\ (0 < (if g then 1 else - (1)) / dflt 1 (sa_r_star y') <-> g = true)).
  { assert (I := Rinv_0_lt_compat _ HR). assert (I' := Rinv_0_lt_compat _ HR'). intros [|]; unfold Rdiv; split; split; intro h; try reflexivity; try lra; try discriminate. }
  destruct (Sg (Rltb (Rabs (sdt y t)) (0.5 * sa_duration y))) as [g1 g2]. destruct (Rlt_dec 0 _) as [h1|h1], (Rlt_dec 0 _) as [h2|h2]; tauto || reflexivity.
Qed.
End SS.

Section KS.
Variables (k : consts) (x : kargs R) (o : orbit R) (r : R) (x' : sargs R) (r' : R).
Hypothesis kok : consts_ok k.
Hypothesis Ho : kep_init k x = Ok o.
Hypothesis ph : physical o.
Hypothesis tr : transiting o r.
Hypothesis cr' : crossing x' r'.
(** a circle is nowhere a straight line *)
Lemma ks_differ u1 u2 : lit u1 u2 -> matched x' r' -> ratio_shown u1 u2 (o_b o) (o_r_star o) r (dflt 0 (sa_b x')) (dflt 1 (sa_r_star x')) r' ->
  ~ forall t, flux_at u1 u2 (pos k o Relative t None false) r (o_r_star o) = flux_at u1 u2 (spos x' t) r' (dflt 1 (sa_r_star x')).
Proof.
  intros Hl M' Sh E. destruct (kep_passes k x o r kok Ho ph tr) as [H1 H2]. assert (H1' := simple_passes x' r' cr').
  assert (Er := ratio_of u1 u2 _ _ _ _ _ _ _ _ _ _ _ _ _ _ _ _ H1 H1' (kep_away0 o ph) (simple_away0 x' r' cr') E Sh).
  destruct (pass_times _ _ _ _ _ _ _ H1 _ _ _ _ _ _ _ H1' u1 u2 (lit_shines _ _ Hl) E) as (EP & Ew & Et). destruct (pass_shape _ _ _ _ _ _ _ H1 _ _ _ _ _ _ _ H1' u1 u2 (lit_shines _ _ Hl) E (proj1 Hl) (proj2 Hl) Er H2 (simple_reaches x' r' cr' M')) as (d0 & D0 & F).
  assert (HP := ph_period _ ph). assert (Hpi := PI_RGT_0). assert (HR := ph_r_star _ ph). assert (HR' := so_r_star _ (cr_ok _ _ cr')).
  destruct (sizes o r ph tr) as (S1 & S2 & S3 & S4). set (A := o_a o * o_a o - o_b o * o_b o * (o_r_star o * o_r_star o)) in *.
  set (w := half_time o (o_r_star o + r)) in *. assert (W : w < o_period o / 4). { assert (Hr := tr_radius _ _ tr). apply (half_range o r ph tr (o_r_star o + r)); lra. }
  set (om := 2 * PI / o_period o). assert (Om : 0 < om) by (apply Rdiv_lt_0_compat; lra). set (K := A / (o_r_star o * o_r_star o)). assert (K0 : 0 < K) by (apply Rdiv_lt_0_compat; [exact S1|apply Rmult_lt_0_compat; exact HR]).
  set (V := sspeed x' / dflt 1 (sa_r_star x') * (sspeed x' / dflt 1 (sa_r_star x'))).
  assert (L : forall d, d0 < d < w -> V * (d * d) + dflt 0 (sa_b x') * dflt 0 (sa_b x') = K * (1 - cos (2 * (om * d))) / 2 + o_b o * o_b o).
  { intros d Hd. specialize (F d Hd). unfold simple_away, kep_away in F. apply sqrt_ratio in F; try assumption; [|apply (kep_away_sq o r d ph tr)|apply away_sq]. fold A in F.
    transitivity ((sspeed x' * d * (sspeed x' * d) + dflt 0 (sa_b x') * dflt 1 (sa_r_star x') * (dflt 0 (sa_b x') * dflt 1 (sa_r_star x'))) / (dflt 1 (sa_r_star x') * dflt 1 (sa_r_star x'))); [unfold V; field; lra|]. rewrite F.
    replace (2 * PI * d / o_period o) with (om * d) by (unfold om; field; lra). rewrite cos_2a_sin. unfold K. field. lra. }
  (* second differences at two places *)
  set (h := (w - d0) / 8). assert (Hh : 0 < h) by (unfold h; lra).
  assert (Df : forall m, d0 + h < m < w - h -> 2 * V * (h * h) = K * (cos (2 * (om * m)) * (1 - cos (2 * (om * h))))).
  { intros m Hm. assert (A1 := L (m + h) ltac:(lra)). assert (A2 := L (m - h) ltac:(lra)). assert (A3 := L m ltac:(lra)).
    replace (2 * (om * (m + h))) with (2 * (om * m) + 2 * (om * h)) in A1 by ring. replace (2 * (om * (m - h))) with (2 * (om * m) - 2 * (om * h)) in A2 by ring. rewrite cos_plus in A1. rewrite cos_minus in A2.
    assert (G : V * ((m + h) * (m + h)) + V * ((m - h) * (m - h)) - 2 * (V * (m * m)) = 2 * V * (h * h)) by ring. set (C := cos (2 * (om * m))) in *. set (Sn := sin (2 * (om * m)) * sin (2 * (om * h))) in *. set (c := cos (2 * (om * h))) in *. lra. }
  assert (B1 := Df (d0 + 2 * h) ltac:(unfold h in *; lra)). assert (B2 := Df (d0 + 4 * h) ltac:(unfold h in *; lra)).
  assert (Hh' : om * h < PI / 4). { replace (PI / 4) with (om * (o_period o / 8)) by (unfold om; field; lra). apply Rmult_lt_compat_l; [exact Om|]. unfold h. lra. }
  assert (Oh : 0 < om * h) by (apply Rmult_lt_0_compat; assumption).
  assert (C1 : cos (2 * (om * h)) < 1). { rewrite <- cos_0. apply cos_decreasing_1; lra. }
  assert (Lt : cos (2 * (om * (d0 + 4 * h))) < cos (2 * (om * (d0 + 2 * h)))).
  { assert (T1 : 0 <= om * (d0 + 2 * h)) by (apply Rmult_le_pos; lra). assert (T2 : om * (d0 + 4 * h) < PI / 2). { replace (PI / 2) with (om * (o_period o / 4)) by (unfold om; field; lra). apply Rmult_lt_compat_l; [exact Om|]. unfold h in *. lra. }
    assert (T3 : om * (d0 + 2 * h) < om * (d0 + 4 * h)) by (apply Rmult_lt_compat_l; lra). apply cos_decreasing_1; lra. }
  assert (Q := Rmult_lt_compat_r (K * (1 - cos (2 * (om * h)))) _ _ ltac:(apply Rmult_lt_0_compat; lra) Lt). lra.
Qed.
End KS.
