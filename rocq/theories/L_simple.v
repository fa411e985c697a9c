(** * SimpleTransitOrbit: one planet *)
From Coq Require Import Reals List Bool Arith ZArith Lra Lia Psatz Sorted.
From Verif Require Import Num CoreOps Inst M_units M_kepler M_fin M_tensor M_simple Spec_array Spec_simple
  L_real L_fl L_transit L_transit2.
Import ListNotations.
Open Scope R_scope.

Section S.
Variable x : sargs R.
Notation P := (sa_period x).
Notation D := (sa_duration x).
Notation t0 := (dflt 0 (sa_t0 x)).
Notation b := (dflt 0 (sa_b x)).
Notation rs := (dflt 1 (sa_r_star x)).
Notation ror := (dflt 0 (sa_ror x)).
Definition sspeed : R := 2 * sqrt (rs * rs * ((1 + ror) * (1 + ror) - b * b)) / D.
(** time since the nearest mid-transit *)
Definition sdt (t : R) : R := Rmodulo (t - (t0 - 0.5 * P)) P - 0.5 * P.

Lemma spos_eq t : spos x t = (sspeed * sdt t, b * rs + 0, if Rltb (Rabs (sdt t)) (0.5 * D) then 1 else - (1)).
Proof. reflexivity. Qed.

Lemma sdt_mid (q : Z) d : 0 < P -> - (P / 2) <= d < P / 2 -> sdt (smid x q + d) = d.
Proof.
  intros HP Hd. unfold sdt, smid. replace (t0 + IZR q * P + d - (t0 - 0.5 * P)) with (d + 0.5 * P + IZR q * P) by ring.
  rewrite Rmodulo_add_mult by lra. rewrite (Rmodulo_unique (d + 0.5 * P) P 0) by lra. lra.
Qed.
Lemma sdt_near t : 0 < P -> exists q, sdt t = t - smid x q /\ - (P / 2) <= sdt t < P / 2.
Proof.
  intro HP. unfold sdt, smid. destruct (Rmodulo_eq (t - (t0 - 0.5 * P)) P) as [q Hq]. exists q.
  generalize (Rmodulo_bounds (t - (t0 - 0.5 * P)) P HP). rewrite Hq. split; lra.
Qed.
Lemma sdt_le t (q : Z) : 0 < P -> Rabs (sdt t) <= Rabs (t - smid x q).
Proof.
  intro HP. destruct (sdt_near t HP) as (q0 & E & Bd). destruct (Z.eq_dec q q0) as [->|Hq]; [rewrite <- E; lra|].
  assert (Dq : 1 <= Rabs (IZR (q - q0))).
  { rewrite <- abs_IZR. apply IZR_le. lia. }
  assert (E2 : t - smid x q = sdt t - IZR (q - q0) * P) by (rewrite E; unfold smid; rewrite minus_IZR; ring).
  rewrite E2. assert (L : P <= Rabs (IZR (q - q0) * P)) by (rewrite Rabs_mult, (Rabs_pos_eq P) by lra; nra).
  assert (L2 : Rabs (sdt t) <= P / 2) by (apply Rabs_le; lra).
  assert (Tr := Rabs_triang_inv (IZR (q - q0) * P) (sdt t)). rewrite Rabs_minus_sym in Tr. lra.
Qed.
Lemma sdt_lt t a : 0 < P -> Rabs (sdt t) < a <-> exists q : Z, Rabs (t - smid x q) < a.
Proof.
  intro HP. split.
  - intro H. destruct (sdt_near t HP) as (q & E & _). exists q. rewrite <- E. exact H.
  - intros (q & H). generalize (sdt_le t q HP). lra.
Qed.
(** padding by half an exposure *)
Lemma sdt_pad t a e : 0 < P -> 0 < a -> 0 <= e ->
  Rabs (sdt t) < a + e <-> exists s, Rabs (s - t) <= e /\ Rabs (sdt s) < a.
Proof.
  intros HP Ha He. split.
  - intro H. destruct (sdt_near t HP) as (q & E & _). set (d := sdt t) in *.
    destruct (Rle_or_lt (Rabs d) e) as [C|C].
    + exists (smid x q). split; [rewrite Rabs_minus_sym, <- E; exact C|].
      apply sdt_lt; [exact HP|]. exists q. unfold Rminus. rewrite Rplus_opp_r, Rabs_R0. exact Ha.
    + destruct (Rle_or_lt 0 d) as [S|S].
      * rewrite (Rabs_pos_eq d) in * by lra. exists (t - e). split; [replace (t - e - t) with (- e) by ring; rewrite Rabs_Ropp, Rabs_pos_eq; lra|].
        apply sdt_lt; [exact HP|]. exists q. replace (t - e - smid x q) with (d - e) by lra. apply Rabs_def1; lra.
      * rewrite (Rabs_left d) in * by lra. exists (t + e). split; [replace (t + e - t) with e by ring; rewrite Rabs_pos_eq; lra|].
        apply sdt_lt; [exact HP|]. exists q. replace (t + e - smid x q) with (d + e) by lra. apply Rabs_def1; lra.
  - intros (s & S1 & S2). apply sdt_lt in S2; [|exact HP]. destruct S2 as (q & S2). apply sdt_lt; [exact HP|]. exists q.
    replace (t - smid x q) with (- (s - t) + (s - smid x q)) by ring.
    generalize (Rabs_triang (- (s - t)) (s - smid x q)). rewrite Rabs_Ropp. lra.
Qed.

Hypothesis ok : simple_ok x.
Lemma s_arg : 0 <= (1 + ror) * (1 + ror) - b * b.
Proof.
  assert (B := so_b _ ok). assert (0 <= Rabs b) by apply Rabs_pos.
  assert (E : b * b = Rabs b * Rabs b) by (unfold Rabs; destruct (Rcase_abs b); ring). rewrite E. nra.
Qed.
Lemma s_arg2 : 0 <= rs * rs * ((1 + ror) * (1 + ror) - b * b).
Proof. assert (A := s_arg). assert (R := so_r_star _ ok). apply Rmult_le_pos; [nra|exact A]. Qed.
Lemma sspeed_pos : 0 <= sspeed.
Proof. assert (HD := so_duration _ ok). unfold sspeed. apply Rmult_le_pos; [|apply Rlt_le, Rinv_0_lt_compat; lra]. generalize (sqrt_pos (rs * rs * ((1 + ror) * (1 + ror) - b * b))). lra. Qed.
Lemma sspeed_sq : sspeed * sspeed * (D * D) = 4 * (rs * rs * ((1 + ror) * (1 + ror) - b * b)).
Proof.
  assert (HD := so_duration _ ok). unfold sspeed. set (g := rs * rs * _) in *. assert (Q := sqrt_sqrt g s_arg2).
  replace (2 * sqrt g / D * (2 * sqrt g / D) * (D * D)) with (4 * (sqrt g * sqrt g)) by (field; lra). rewrite Q. reflexivity.
Qed.

Lemma simple_geometry :
  (forall t, sz x t = 1 <-> exists q : Z, Rabs (t - smid x q) < D / 2) /\
  (forall t, sz x t = 1 \/ sz x t = -1) /\
  (forall (q : Z) d, - (P / 2) <= d < P / 2 ->
     sx x (smid x q + d) = 2 * (rs * sqrt ((1 + ror) * (1 + ror) - b * b)) / D * d /\ sy x (smid x q + d) = b * rs) /\
  (D <= P -> forall q : Z, sdist x (smid x q + D / 2) = rs * (1 + ror) /\ sdist x (smid x q - D / 2) = rs * (1 + ror)) /\
  (forall q : Z, sdist x (smid x q) = Rabs b * rs) /\
  (forall t (q : Z), spos x (t + IZR q * P) = spos x t).
Proof.
  assert (HP := so_period _ ok). assert (HD := so_duration _ ok). assert (HR := so_r_star _ ok). assert (HB := so_b _ ok).
  assert (Hror : 0 <= 1 + ror) by (generalize (Rabs_pos b); lra).
  assert (Per : forall t (q : Z), spos x (t + IZR q * P) = spos x t).
  { intros t q. rewrite !spos_eq. assert (E : sdt (t + IZR q * P) = sdt t).
    { unfold sdt. replace (t + IZR q * P - (t0 - 0.5 * P)) with (t - (t0 - 0.5 * P) + IZR q * P) by ring. rewrite Rmodulo_add_mult by lra. reflexivity. }
    rewrite E. reflexivity. }
  split; [|split; [|split; [|split; [|split; [|exact Per]]]]].
  - intro t. unfold sz. rewrite spos_eq. cbn [snd]. replace (0.5 * D) with (D / 2) by lra. rewrite <- sdt_lt by exact HP.
    unfold Rltb. destruct (Rlt_dec _ _); split; intro Hz; [assumption|reflexivity|exfalso; lra|contradiction].
  - intro t. unfold sz. rewrite spos_eq. cbn [snd]. destruct (Rltb _ _); [left|right]; lra.
  - intros q d Hd. unfold sx, sy. rewrite !spos_eq. cbn [fst snd]. rewrite sdt_mid by assumption. split; [|ring].
    unfold sspeed. rewrite sqrt_mult by (try nra; apply s_arg). rewrite sqrt_square by lra. reflexivity.
  - intros HDP q. 
    assert (G : forall d, (d = D / 2 \/ d = - (D / 2)) -> sqrt (sspeed * d * (sspeed * d) + (b * rs + 0) * (b * rs + 0)) = rs * (1 + ror)).
    { intros d Hd. transitivity (sqrt (rs * (1 + ror) * (rs * (1 + ror)))); [|apply sqrt_square; apply Rmult_le_pos; lra].
      f_equal. assert (Q := sspeed_sq). assert (E : sspeed * d * (sspeed * d) = sspeed * sspeed * (D * D) / 4) by (destruct Hd as [->| ->]; field).
      rewrite E, Q. field. }
    assert (M : forall d, - (P / 2) <= d < P / 2 -> (d = D / 2 \/ d = - (D / 2)) -> sdist x (smid x q + d) = rs * (1 + ror)).
    { intros d Bd Hd. unfold sdist, sx, sy. rewrite spos_eq. cbn [fst snd]. rewrite sdt_mid by assumption. apply G, Hd. }
    assert (Mm : sdist x (smid x q - D / 2) = rs * (1 + ror)).
    { unfold Rminus. apply M; [lra|right; reflexivity]. }
    split; [|exact Mm]. destruct (Rle_lt_or_eq_dec _ _ HDP) as [L|L].
    + apply M; [lra|left; reflexivity].
    + assert (E : smid x q + D / 2 = smid x q - D / 2 + IZR 1 * P) by (rewrite <- L; field).
      unfold sdist, sx, sy in *. rewrite E, Per. exact Mm.
  - intro q. unfold sdist, sx, sy. rewrite spos_eq. cbn [fst snd]. rewrite <- (Rplus_0_r (smid x q)), sdt_mid by lra.
    replace (sspeed * 0 * (sspeed * 0) + (b * rs + 0) * (b * rs + 0)) with (Rabs b * rs * (Rabs b * rs)).
    2:{ unfold Rabs. destruct (Rcase_abs b); ring. }
    apply sqrt_square. apply Rmult_le_pos; [apply Rabs_pos|lra].
Qed.

(** machine numbers *)
Lemma simple_init_fin : exists s, simple_init (map_sargs Fin x) = s /\
  s_period s = Fin P /\ s_duration s = Fin D /\ s_r_star s = Fin rs /\ s_b_norm s = Fin (b * rs) /\
  s_speed s = Fin sspeed /\ s_half_period s = Fin (0.5 * P) /\ s_ref_time s = Fin (t0 - 0.5 * P).
Proof.
  eexists. split; [reflexivity|]. unfold simple_init. cbn [s_period s_duration s_r_star s_b_norm s_speed s_half_period s_ref_time map_sargs sa_period sa_duration sa_t0 sa_b sa_r_star sa_ror].
  assert (E : forall a d, dflt (Fin d) (option_map Fin a) = Fin (dflt d a)) by (intros [?|] ?; reflexivity).
  cbn [nlit NumF]. rewrite !E. fn. 
  split; [reflexivity|]. split; [reflexivity|]. split; [reflexivity|]. split; [reflexivity|].
  split; [|split; reflexivity].
  assert (A := s_arg2). assert (HD := so_duration _ ok). unfold Rminus in A. rewrite fsqrt_fin by exact A. cbn [fmul]. rewrite fdiv_fin by lra. reflexivity.
Qed.
Lemma simple_dt_fin t : simple_dt (simple_init (map_sargs Fin x)) (Fin t) = Fin (sdt t).
Proof.
  destruct simple_init_fin as (s & -> & E1 & E2 & E3 & E4 & E5 & E6 & E7). assert (HP := so_period _ ok).
  unfold simple_dt. rewrite E1, E6, E7. fn. rewrite fmod_fin by lra. reflexivity.
Qed.
Lemma simple_pos_fin t : simple_relative_position (simple_init (map_sargs Fin x)) (Fin t) false = Ok (fin3 (spos x t)).
Proof.
  unfold simple_relative_position. rewrite simple_dt_fin, spos_eq.
  destruct simple_init_fin as (s & -> & E1 & E2 & E3 & E4 & E5 & E6 & E7). rewrite E2, E4, E5. fn. cbn [flt].
  destruct (Rltb _ _); reflexivity.
Qed.

(** the mask *)
Lemma simple_mask_none t texp : 0 <= pad_of texp ->
  simple_mask (simple_init (map_sargs Fin x)) (Fin t) None (option_map Fin texp) = true <->
  exists s, Rabs (s - t) <= pad_of texp / 2 /\ sz x s = 1.
Proof.
  intro He. unfold simple_mask. rewrite simple_dt_fin. destruct simple_init_fin as (s & -> & E1 & E2 & E3 & E4 & E5 & E6 & E7). rewrite E2.
  assert (HP := so_period _ ok). assert (HD := so_duration _ ok).
  assert (M : Rabs (sdt t) < D / 2 + pad_of texp / 2 <-> exists s, Rabs (s - t) <= pad_of texp / 2 /\ sz x s = 1).
  { rewrite sdt_pad by lra. assert (G := proj1 simple_geometry). split; intros (u & U1 & U2); exists u; (split; [exact U1|]).
    - apply G. apply sdt_lt; assumption.
    - apply G in U2. apply sdt_lt; assumption. }
  rewrite <- M. destruct texp as [e|]; cbn [option_map pad_of]; fn; cbn [flt]; unfold Rltb; destruct (Rlt_dec _ _) as [L|L]; split; intro H; try lra; try reflexivity; try discriminate.
Qed.

Lemma simple_mask_r t r texp : 0 <= pad_of texp -> Rabs b < 1 + ror -> 0 <= r -> Rabs b * rs <> rs + r ->
  simple_mask (simple_init (map_sargs Fin x)) (Fin t) (Some (Fin r)) (option_map Fin texp) = true <->
  exists s, Rabs (s - t) <= pad_of texp / 2 /\ sdist x s < rs + r.
Proof.
  intros He Hb Hr Hg. unfold simple_mask. rewrite simple_dt_fin. destruct simple_init_fin as (s & -> & E1 & E2 & E3 & E4 & E5 & E6 & E7). rewrite E3, E4, E5.
  assert (HP := so_period _ ok). assert (HD := so_duration _ ok). assert (HR := so_r_star _ ok).
  assert (Bp := Rabs_pos b). assert (Eb : b * b = Rabs b * Rabs b) by (unfold Rabs; destruct (Rcase_abs b); ring).
  assert (Sp : 0 < sspeed).
  { unfold sspeed. apply Rdiv_lt_0_compat; [|lra]. assert (0 < sqrt (rs * rs * ((1 + ror) * (1 + ror) - b * b))); [|lra].
    apply sqrt_lt_R0. apply Rmult_lt_0_compat; [nra|]. rewrite Eb. nra. }
  fn. cbn [flt].
  set (g := (r + rs) * (r + rs) + - (b * rs * (b * rs))).
  assert (Gd : g = (rs + r) * (rs + r) - (Rabs b * rs) * (Rabs b * rs)).
  { unfold g. replace (b * rs * (b * rs)) with (b * b * (rs * rs)) by ring. rewrite Eb. ring. }
  assert (Ds : forall u, sdist x u < rs + r <-> sspeed * sspeed * (sdt u * sdt u) < g).
  { intro u. unfold sdist, sx, sy. rewrite spos_eq. cbn [fst snd]. set (w := _ + _ * _).
    assert (Ew : w = sspeed * sspeed * (sdt u * sdt u) + (Rabs b * rs) * (Rabs b * rs)).
    { unfold w. replace ((b * rs + 0) * (b * rs + 0)) with (b * b * (rs * rs)) by ring. rewrite Eb. ring. }
    assert (Hw : 0 <= w) by (rewrite Ew; assert (0 <= sspeed * sspeed) by nra; assert (0 <= sdt u * sdt u) by nra; assert (0 <= Rabs b * rs * (Rabs b * rs)) by nra; assert (0 <= sspeed * sspeed * (sdt u * sdt u)) by (apply Rmult_le_pos; assumption); lra).
    assert (Ps := sqrt_pos w). assert (Ss := sqrt_sqrt w Hw). split; intro H.
    - assert (sqrt w * sqrt w < (rs + r) * (rs + r)) by nra. lra.
    - destruct (Rlt_or_le (sqrt w) (rs + r)) as [L|L]; [exact L|]. assert ((rs + r) * (rs + r) <= sqrt w * sqrt w) by nra. lra. }
  destruct (Rlt_or_le (Rabs b * rs) (rs + r)) as [C|C].
  - assert (Gp : 0 < g) by (rewrite Gd; assert (0 <= Rabs b * rs) by (apply Rmult_le_pos; lra); nra).
    rewrite fsqrt_fin by lra. rewrite fdiv_fin by lra.
    set (a := sqrt g / sspeed). assert (Ha : 0 < a) by (apply Rdiv_lt_0_compat; [apply sqrt_lt_R0; exact Gp|exact Sp]).
    assert (Da : forall u, sdist x u < rs + r <-> Rabs (sdt u) < a).
    { intro u. rewrite Ds. assert (Ea : a * a * (sspeed * sspeed) = g).
      { unfold a. assert (Q := sqrt_sqrt g ltac:(lra)). transitivity (sqrt g * sqrt g); [field; lra|exact Q]. }
      assert (Eu : sdt u * sdt u = Rabs (sdt u) * Rabs (sdt u)) by (unfold Rabs; destruct (Rcase_abs (sdt u)); ring).
      assert (Pu := Rabs_pos (sdt u)). rewrite Eu. assert (Hss : 0 < sspeed * sspeed) by nra. split; intro H.
      - destruct (Rlt_or_le (Rabs (sdt u)) a) as [L|L]; [exact L|]. assert (a * a <= Rabs (sdt u) * Rabs (sdt u)) by nra. nra.
      - assert (Rabs (sdt u) * Rabs (sdt u) < a * a) by nra. nra. }
    assert (M : Rabs (sdt t) < a + pad_of texp / 2 <-> exists s, Rabs (s - t) <= pad_of texp / 2 /\ sdist x s < rs + r).
    { rewrite sdt_pad by lra. split; intros (u & U1 & U2); exists u; (split; [exact U1|]); apply Da; exact U2. }
    rewrite <- M. clearbody a. destruct texp as [e|]; cbn [option_map pad_of]; fn; cbn [flt]; unfold Rltb; destruct (Rlt_dec _ _) as [L|L]; split; intro H; try lra; try reflexivity; try discriminate.
  - assert (Gn : g < 0) by (rewrite Gd; assert (0 <= Rabs b * rs) by (apply Rmult_le_pos; lra); nra).
    assert (En : fsqrt (Fin g) = NaN) by (unfold fsqrt; rewrite (Rltb_true g 0 Gn); reflexivity).
    rewrite En, fdiv_nan_l. split.
    + destruct texp as [e|]; cbn; discriminate.
    + intros (u & _ & U). apply Ds in U. assert (0 <= sspeed * sspeed * (sdt u * sdt u)) by (apply Rmult_le_pos; nra). lra.
Qed.

(** r = ror * r_star *)
Lemma simple_r_agree s : ror * rs = ror * rs -> Rabs b < 1 + ror -> D <= P -> sdist x s < rs + ror * rs <-> sz x s = 1.
Proof.
  intros _ Hb HDP. assert (HP := so_period _ ok). assert (HD := so_duration _ ok). assert (HR := so_r_star _ ok).
  assert (Bp := Rabs_pos b). assert (Eb : b * b = Rabs b * Rabs b) by (unfold Rabs; destruct (Rcase_abs b); ring).
  rewrite (proj1 simple_geometry s), <- sdt_lt by exact HP.
  unfold sdist, sx, sy. rewrite spos_eq. cbn [fst snd]. set (w := _ + _ * _).
  assert (Q := sspeed_sq). assert (E0 : w * (D * D) = sspeed * sspeed * (D * D) * (sdt s * sdt s) + b * b * (rs * rs) * (D * D)) by (unfold w; ring).
  rewrite Q in E0. assert (Eu : sdt s * sdt s = Rabs (sdt s) * Rabs (sdt s)) by (unfold Rabs; destruct (Rcase_abs (sdt s)); ring).
  rewrite Eu in E0. set (v := Rabs (sdt s)) in *. assert (Pv : 0 <= v) by apply Rabs_pos.
  assert (G : 0 < rs * rs * ((1 + ror) * (1 + ror) - b * b)) by (apply Rmult_lt_0_compat; [nra|]; rewrite Eb; nra).
  assert (E1 : w * (D * D) - (rs + ror * rs) * (rs + ror * rs) * (D * D) = 4 * (rs * rs * ((1 + ror) * (1 + ror) - b * b)) * (v * v - D / 2 * (D / 2))).
  { rewrite E0. field. }
  assert (Hw : 0 <= w) by (unfold w; nra).
  assert (Ps := sqrt_pos w). assert (Ss := sqrt_sqrt w Hw). set (g := rs * rs * _) in *. clearbody g v.
  assert (Rp : 0 < rs + ror * rs) by nra. assert (DD : 0 < D * D) by nra.
  split; intro H.
  - destruct (Rlt_or_le v (D / 2)) as [L|L]; [exact L|]. assert (0 <= v * v - D / 2 * (D / 2)) by nra.
    assert (sqrt w * sqrt w < (rs + ror * rs) * (rs + ror * rs)) by nra. nra.
  - destruct (Rlt_or_le (sqrt w) (rs + ror * rs)) as [L|L]; [exact L|].
    assert (v * v - D / 2 * (D / 2) < 0) by nra.
    assert ((rs + ror * rs) * (rs + ror * rs) <= sqrt w * sqrt w) by nra. nra.
Qed.
End S.

(** |b| > 1 + ror *)
Lemma simple_high_b : forall x t, 0 < sa_period x -> 0 < sa_duration x -> 0 < dflt 1 (sa_r_star x) -> 0 <= 1 + dflt 0 (sa_ror x) ->
  1 + dflt 0 (sa_ror x) < Rabs (dflt 0 (sa_b x)) ->
  simple_relative_position (simple_init (map_sargs Fin x)) (Fin t) false = Ok (NaN, Fin (sy x t), Fin (sz x t)).
Proof.
  intros x t HP HD HR Hr Hb. unfold simple_relative_position, simple_dt, simple_init, sy, sz. rewrite spos_eq.
  cbn [s_period s_duration s_r_star s_b_norm s_speed s_half_period s_ref_time map_sargs sa_period sa_duration sa_t0 sa_b sa_r_star sa_ror fst snd].
  assert (E : forall a d, dflt (Fin d) (option_map Fin a) = Fin (dflt d a)) by (intros [?|] ?; reflexivity).
  cbn [nlit NumF]. rewrite !E. fn. rewrite fmod_fin by lra.
  set (g := dflt 1 (sa_r_star x) * dflt 1 (sa_r_star x) * _).
  assert (Gn : g < 0).
  { unfold g. set (b := dflt 0 (sa_b x)) in *. assert (Eb : b * b = Rabs b * Rabs b) by (unfold Rabs; destruct (Rcase_abs b); ring). rewrite Eb.
    set (rs := dflt 1 _) in *. set (ror := dflt 0 (sa_ror x)) in *. assert (0 < rs * rs) by nra. assert ((1 + ror) * (1 + ror) + - (Rabs b * Rabs b) < 0) by nra. nra. }
  assert (En : fsqrt (Fin g) = NaN) by (unfold fsqrt; rewrite (Rltb_true g 0 Gn); reflexivity).
  rewrite En. cbn [fmul flt fdiv fabs fsub fadd fneg]. unfold sdt, Rminus. destruct (Rltb _ _); reflexivity.
Qed.
