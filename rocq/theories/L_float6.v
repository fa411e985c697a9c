(** * Proofs: orbits and motion with rounding errors *)
From Coq Require Import Reals Lra Lia Psatz Bool List.
From Coquelicot Require Import Rcomplements.
From Verif Require Import Num CoreOps Inst M_units M_kepler Spec_orbit Spec_params Spec_float L_real L_kepop L_orbit L_float L_float2 L_float3 L_float4 L_float5.
Open Scope R_scope.

Section V.
Variable u : R.
Variable rd : rounder.
Hypothesis Acc : accurate u rd.
Let U := proj1 Acc.
Notation N := (rounded rd).

Lemma rd_trig op a b r : Rabs r <= 1 -> Rabs (rd op a b r) <= 1 + u.
Proof.
  intro H. destruct (rd_close u rd Acc op a b r r 0 1) as [_ K]; [rewrite Rminus_eq_0, Rabs_R0; lra|exact H|]. lra.
Qed.
Lemma sin_le x : Rabs (sin x) <= 1.
Proof. apply Rabs_le. assert (K := SIN_bound x). lra. Qed.
Lemma cos_le x : Rabs (cos x) <= 1.
Proof. apply Rabs_le. assert (K := COS_bound x). lra. Qed.

Lemma init_turned k x o : @kep_init R bool N k x = Ok o -> Rabs (o_cos_incl o) <= 1 + u -> turned u o.
Proof.
  intros H Hc. split; [exact Hc|]. clear Hc. unfold kep_init in H. inv_bind H. destruct v as [mp rho]. inv_bind H. destruct v as [[[a0 r0] dur] dadt]. inv_bind H.
  destruct v as [[[[[a P] RHO] RS] MS] MP]. inv_bind H. inv_bind H. destruct v0 as [[[b ci] inc] durattr]. inv_bind H. destruct v0 as [t0 tper].
  apply Ok_eq in H. subst o. cbn [o_sin_incl o_Omega]. clear - Acc. split; [apply (rd_trig OSin inc 0), sin_le|].
  destruct (ka_Omega x) as [w0|]; intros w H; [|discriminate]. injection H as <-. cbn [O_cos O_sin]. split; [apply (rd_trig OCos w0 0), cos_le|apply (rd_trig OSin w0 0), sin_le].
Qed.
Lemma init_oriented k x o : @kep_init R bool N k x = Ok o -> (forall e, ka_ecc x = Some e -> 0 <= e < 1) ->
  (forall s, ka_sin_omega x = Some s -> Rabs s <= 1) -> (forall c, ka_cos_omega x = Some c -> Rabs c <= 1) -> oriented u o.
Proof.
  intros H He Hs Hc. unfold kep_init in H. inv_bind H. destruct v as [mp rho]. inv_bind H. destruct v as [[[a0 r0] dur] dadt]. inv_bind H.
  destruct v as [[[[[a P] RHO] RS] MS] MP]. inv_bind H. inv_bind H. destruct v0 as [[[b ci] inc] durattr]. inv_bind H. destruct v0 as [t0 tper].
  apply Ok_eq in H. subst o. unfold oriented. cbn [o_ecc]. clear - E2 He Hs Hc Acc. intros d ->. unfold kep_omega in E2.
  destruct (ka_ecc x) as [e|]; [|discriminate]. destruct (ka_omega x) as [w|].
  - destruct (_ && _); [discriminate|]. injection E2 as <-. cbn [e_ecc e_cosw e_sinw]. repeat split; try apply (He e eq_refl); [apply (rd_trig OCos w 0), cos_le|apply (rd_trig OSin w 0), sin_le].
  - destruct (ka_sin_omega x) as [s|], (ka_cos_omega x) as [c|]; try discriminate. injection E2 as <-. cbn [e_ecc e_cosw e_sinw]. assert (U' := proj1 Acc).
    assert (A := Hs s eq_refl). assert (B := Hc c eq_refl). repeat split; try apply (He e eq_refl); lra.
Qed.
Lemma n_positive k x o : consts_ok k -> @kep_init R bool N k x = Ok o -> sizes o -> 0 <= o_n o.
Proof.
  intros kok H S. unfold kep_init in H. inv_bind H. destruct v as [mp rho]. inv_bind H. destruct v as [[[a0 r0] dur] dadt]. inv_bind H.
  destruct v as [[[[[a P] RHO] RS] MS] MP]. inv_bind H. inv_bind H. destruct v0 as [[[b ci] inc] durattr]. inv_bind H. destruct v0 as [t0 tper].
  apply Ok_eq in H. subst o. destruct S as (_ & Hp & _). cbn [o_period o_n] in *. clear - Hp Acc.
  match goal with |- 0 <= ?X => assert (A : ap (u / (1 - u)) 4 X (2 * PI / P)) end.
  { cbn [ndiv nmul nlit rounded]. eapply (ap_le u rd Acc); [eapply (rd_ap u rd Acc); eapply (ap_div u); [eapply (rd_ap u rd Acc); eapply (ap_mul u); eapply (rd_ap u rd Acc); apply (ap_refl u)|apply (ap_refl u)]|lra]. }
  left. apply (proj2 (ap_pos u _ _ _ A)). assert (K := PI_pos). apply Rdiv_lt_0_compat; lra.
Qed.

Lemma motion k x o : consts_ok k -> @kep_init R bool N k x = Ok o -> sizes o -> exact_zero rd -> Rabs (o_cos_incl o) <= 1 + u ->
  (forall e, ka_ecc x = Some e -> 0 <= e < 1) -> (forall s, ka_sin_omega x = Some s -> Rabs s <= 1) -> (forall c, ka_cos_omega x = Some c -> Rabs c <= 1) ->
  let w := @kep_warp R bool N o in let w' := @kep_warp R bool NumR o in
  (forall t, u * slack o * (6 + 8 * (slack o ^ 3 * swing o t)) <= 1 / 10 ->
    near3 (@get_relative_position R bool N k o w t None false) (@get_relative_position R bool NumR k o w' t None false) (210 * u * o_a o * slack o * (1 + slack o ^ 3 * swing o t)) /\
    near3 (@get_planet_position R bool N k o w t None false) (@get_planet_position R bool NumR k o w' t None false) (210 * u * Rabs (o_a_planet o) * slack o * (1 + slack o ^ 3 * swing o t)) /\
    near3 (@get_star_position R bool N k o w t None false) (@get_star_position R bool NumR k o w' t None false) (210 * u * Rabs (o_a_star o) * slack o * (1 + slack o ^ 3 * swing o t))) /\
  (forall t,
    near3 (@get_relative_velocity R bool N o w t) (@get_relative_velocity R bool NumR o w' t) (85 * u * Rabs (o_K0 o * o_m_total o) * (1 + slack o ^ 3 * swing o t)) /\
    near3 (@get_planet_velocity R bool N o w t) (@get_planet_velocity R bool NumR o w' t) (85 * u * Rabs (o_K0 o * o_m_star o) * (1 + slack o ^ 3 * swing o t)) /\
    near3 (@get_star_velocity R bool N o w t) (@get_star_velocity R bool NumR o w' t) (85 * u * Rabs (o_K0 o * o_m_planet o) * (1 + slack o ^ 3 * swing o t))) /\
  (forall t K out, exists v v', @get_radial_velocity R bool N k o w t (Some K) out = Ok v' /\ @get_radial_velocity R bool NumR k o w' t (Some K) out = Ok v /\
    Rabs (v' - v) <= 17 * u * Rabs K * (1 + slack o ^ 3 * swing o t)).
Proof.
  intros kok H S Z Hc He Hs Hco w w'. assert (T := init_turned k x o H Hc). assert (O := init_oriented k x o H He Hs Hco). assert (Hn := n_positive k x o kok H S).
  assert (Q : forall p q : R * R * R, forall E, near3 p q E -> near3 (@sqz3 R bool N p) (@sqz3 R bool NumR q) E). { intros [[a b] c] [[a' b'] c'] E K. exact K. }
  split; [|split].
  - intros t Sm. assert (P := fun A => place_close u rd Acc Z k o t A T O Hn Sm). split; [|split].
    + assert (K := P (- o_a o)). rewrite Rabs_Ropp, (Rabs_pos_eq (o_a o)) in K by (destruct S; lra). apply Q. exact K.
    + apply Q. apply (P (o_a_planet o)).
    + apply Q. apply (P (o_a_star o)).
  - intro t. assert (V := fun m => speed_close u rd Acc Z o t m T O Hn). split; [|split].
    + assert (K := V (- o_m_total o)). replace (o_K0 o * - o_m_total o) with (- (o_K0 o * o_m_total o)) in K by ring. rewrite Rabs_Ropp in K. apply Q. exact K.
    + assert (K := V (- o_m_star o)). replace (o_K0 o * - o_m_star o) with (- (o_K0 o * o_m_star o)) in K by ring. rewrite Rabs_Ropp in K. apply Q. exact K.
    + apply Q. apply (V (o_m_planet o)).
  - intros t K out. apply (amplitude_close u rd Acc Z k o t K out O Hn).
Qed.
Lemma circular_motion k x o : consts_ok k -> @kep_init R bool N k x = Ok o -> sizes o -> Rabs (o_cos_incl o) <= 1 + u -> ka_ecc x = None ->
  let w := @kep_warp R bool N o in let w' := @kep_warp R bool NumR o in forall t,
  near3 (@get_relative_position R bool N k o w t None false) (@get_relative_position R bool NumR k o w' t None false) (11 * u * o_a o * (1 + swing o t)) /\
  near3 (@get_relative_velocity R bool N o w t) (@get_relative_velocity R bool NumR o w' t) (13 * u * Rabs (o_K0 o * o_m_total o) * (1 + swing o t)) /\
  forall K out, exists v v', @get_radial_velocity R bool N k o w t (Some K) out = Ok v' /\ @get_radial_velocity R bool NumR k o w' t (Some K) out = Ok v /\
    Rabs (v' - v) <= 4 * u * Rabs K * (1 + swing o t).
Proof.
  intros kok H S Hc He w w' t. assert (T := init_turned k x o H Hc). assert (Hn := n_positive k x o kok H S). assert (Hw := swing_pos o t Hn). assert (U' := U).
  assert (Eo : o_ecc o = None).
  { clear - H He. unfold kep_init in H. inv_bind H. destruct v as [mp rho]. inv_bind H. destruct v as [[[a0 r0] dur] dadt]. inv_bind H.
    destruct v as [[[[[a P] RHO] RS] MS] MP]. inv_bind H. inv_bind H. destruct v0 as [[[b ci] inc] durattr]. inv_bind H. destruct v0 as [t0 tper].
    apply Ok_eq in H. subst o. cbn [o_ecc]. unfold kep_omega in E2. rewrite He in E2. injection E2 as <-. reflexivity. }
  assert (Q : forall p q : R * R * R, forall E F, near3 p q E -> E <= F -> near3 (@sqz3 R bool N p) (@sqz3 R bool NumR q) F). { intros [[a b] c] [[a' b'] c'] E F (K1 & K2 & K3) L. unfold near3. cbn in *. repeat split; lra. }
  split; [|split].
  - assert (K := position_close u rd Acc k o t (- o_a o) T Eo Hn). rewrite Rabs_Ropp in K. assert (Pa : 0 < o_a o) by (destruct S; lra). rewrite Rabs_pos_eq in K by lra. eapply Q; [exact K|].
    assert (0 <= u * o_a o) by nra. nra.
  - assert (K := velocity_close u rd Acc o t (- o_m_total o) T Eo Hn). replace (o_K0 o * - o_m_total o) with (- (o_K0 o * o_m_total o)) in K by ring. rewrite Rabs_Ropp in K. eapply Q; [exact K|].
    assert (PK := Rabs_pos (o_K0 o * o_m_total o)). assert (0 <= u * Rabs (o_K0 o * o_m_total o)) by nra. nra.
  - intros K out. destruct (rv_close u rd Acc k o t K out Eo Hn) as (v & v' & A & B & C). exists v, v'. split; [exact A|]. split; [exact B|]. eapply Rle_trans; [exact C|].
    assert (PK := Rabs_pos K). assert (0 <= u * Rabs K) by nra. nra.
Qed.

Lemma transit_sum a n L d w : 0 < a -> 0 <= n * L -> d = u * (2 * (n * L) + 36) -> w <= 2 + d -> a * (102 / 100 * d) + 11 * u * a * (1 + w) <= u * a * (75 + 3 * (n * L)).
Proof.
  intros Pa nL Ed Hw. assert (U' := U). assert (Z0 : 0 <= u * a) by nra. assert (D0 : 0 <= d) by (rewrite Ed; apply Rmult_le_pos; lra).
  apply Rle_trans with (a * (102 / 100 * d) + 11 * u * a * (1 + (2 + d))).
  - apply Rplus_le_compat_l. apply Rmult_le_compat_l; nra.
  - assert (Zz : u * a * d <= 1 / 100 * (a * d)) by (assert (0 <= a * d) by (apply Rmult_le_pos; lra); nra). assert (Ea : a * d = 2 * (u * a * (n * L)) + 36 * (u * a)) by (rewrite Ed; ring). assert (Y : 0 <= u * a * (n * L)) by (apply Rmult_le_pos; assumption). lra.
Qed.
(** at the reference transit time *)
Lemma mid_transit_close k x o : consts_ok k -> @kep_init R bool N k x = Ok o -> sizes o -> Rabs (o_cos_incl o) <= 1 + u -> ka_ecc x = None -> ka_Omega x = None ->
  near3 (@get_relative_position R bool N k o (@kep_warp R bool N o) (o_t0 o) None false) (0, - (o_a o * o_cos_incl o), o_a o * o_sin_incl o)
    (u * o_a o * (75 + 3 * (o_n o * (Rabs (o_t0 o) + Rabs (o_tper o))))).
Proof.
  intros kok H S Hc He HO. assert (Nc := attributes u rd Acc k kok x o H S). assert (Hn := n_positive k x o kok H S). assert (U' := U). assert (T := init_turned k x o H Hc).
  destruct (circular_motion k x o kok H S Hc He (o_t0 o)) as (P & _). cbv zeta in P.
  assert (Eo : o_ecc o = None /\ o_Omega o = None).
  { clear - H He HO. unfold kep_init in H. inv_bind H. destruct v as [mp rho]. inv_bind H. destruct v as [[[a0 r0] dur] dadt]. inv_bind H.
    destruct v as [[[[[a P] RHO] RS] MS] MP]. inv_bind H. inv_bind H. destruct v0 as [[[b ci] inc] durattr]. inv_bind H. destruct v0 as [t0 tper].
    apply Ok_eq in H. subst o. cbn [o_ecc o_Omega]. unfold kep_omega in E2. rewrite He in E2. injection E2 as <-. rewrite HO. split; reflexivity. }
  destruct Eo as [Eo EO]. set (n := o_n o) in *. set (t0 := o_t0 o) in *. set (tp := o_tper o) in *. set (tr := o_tref o) in *. set (a := o_a o) in *. set (M := - tr * n).
  assert (Ex : @get_relative_position R bool NumR k o (@kep_warp R bool NumR o) t0 None false = (- a * cos M, o_cos_incl o * (- a * sin M), - o_sin_incl o * (- a * sin M))).
  { unfold get_relative_position, get_position, position_nodelay, true_anomaly, kep_warp, rotate_vector, sqz3. rewrite Eo, EO. cbn [nsub nmul nneg nsin ncos npadr nsqz NumR].
    fold t0 tr n a. replace (t0 - t0 - tr) with (- tr) by ring. reflexivity. }
  rewrite Ex in P. clear Ex.
  assert (Sz := S). destruct Sz as (Pa & Pp & _). fold a in Pa. set (p := o_period o) in *. assert (Hpi := PI_pos). assert (Pi4 := PI_4).
  assert (A1 := nc_periastron _ _ _ Nc Eo). fold t0 tp p in A1. assert (A2 := nc_tref _ _ _ Nc). fold tr tp t0 in A2.
  assert (A3 : Rabs (n * p - 2 * PI) <= 5 * u * (2 * PI)).
  { clear - H Pp Acc U' Hpi Pi4. unfold n, p in *. clear n p. unfold kep_init in H. inv_bind H. destruct v as [mp rho]. inv_bind H. destruct v as [[[a0 r0] dur] dadt]. inv_bind H.
    destruct v as [[[[[a P] RHO] RS] MS] MP]. inv_bind H. inv_bind H. destruct v0 as [[[b ci] inc] durattr]. inv_bind H. destruct v0 as [t0 tper].
    apply Ok_eq in H. subst o. cbn [o_n o_period] in *. clear - Pp Acc U' Hpi Pi4. cbn [ndiv nmul nlit rounded].
    match goal with |- Rabs (?X * P - _) <= _ => assert (A : ap (u / (1 - u)) 4 X (2 * PI / P)) end.
    { eapply (ap_le u rd Acc); [eapply (rd_ap u rd Acc); eapply (ap_div u); [eapply (rd_ap u rd Acc); eapply (ap_mul u); eapply (rd_ap u rd Acc); apply (ap_refl u)|apply (ap_refl u)]|lra]. }
    assert (B := ap_mul u _ _ _ _ _ _ A (ap_refl u P)). replace (2 * PI / P * P) with (2 * PI) in B by (field; lra). assert (V := v_u u rd Acc). assert (V2 := v_bounds u U').
    assert (C := close_ap u _ _ _ B ltac:(lra)). eapply Rle_trans; [exact C|]. rewrite (Rabs_pos_eq (2 * PI)) by lra. apply Rmult_le_compat_r; lra. }
  set (L := Rabs t0 + Rabs tp). assert (PL : 0 <= L) by (unfold L; assert (Z1 := Rabs_pos t0); assert (Z2 := Rabs_pos tp); lra).
  assert (B1 : Rabs (- tr - p / 4) <= u * (2 * L + 3 * p)).
  { replace (- tr - p / 4) with (- (tr - (tp - t0)) + (t0 - tp - p / 4)) by ring. eapply Rle_trans; [apply Rabs_triang|]. rewrite Rabs_Ropp.
    assert (Rabs (tp - t0) <= L) by (unfold L, Rminus; eapply Rle_trans; [apply Rabs_triang|]; rewrite Rabs_Ropp; lra).
    assert (u * Rabs (tp - t0) <= u * L) by (apply Rmult_le_compat_l; lra). unfold L in *. nra. }
  set (d := u * (2 * (n * L) + 36)).
  assert (Np : n * p <= 84 / 10) by (apply Rabs_le_between in A3; nra).
  assert (B2 : Rabs (M - PI / 2) <= d).
  { unfold M. replace (- tr * n - PI / 2) with (n * (- tr - p / 4) + (n * p - 2 * PI) / 4) by lra. eapply Rle_trans; [apply Rabs_triang|]. rewrite Rabs_mult, (Rabs_pos_eq n) by exact Hn.
    unfold Rdiv at 2. rewrite Rabs_mult, (Rabs_pos_eq (/ 4)) by lra. assert (n * Rabs (- tr - p / 4) <= n * (u * (2 * L + 3 * p))) by (apply Rmult_le_compat_l; assumption).
    assert (n * (u * (2 * L + 3 * p)) = u * (2 * (n * L) + 3 * (n * p))) by ring. unfold d. nra. }
  assert (Sw : swing o t0 <= 2 + d).
  { unfold swing. fold n t0 tr. rewrite Rminus_eq_0, Rabs_R0, Rplus_0_l. replace (n * Rabs tr) with (Rabs M) by (unfold M; rewrite Rabs_mult, Rabs_Ropp, (Rabs_pos_eq n) by exact Hn; ring).
    eapply Rle_trans; [apply (abs_diff (PI / 2))|]. rewrite (Rabs_pos_eq (PI / 2)) by lra. lra. }
  assert (C1 : Rabs (cos M) <= d). { rewrite <- (Rminus_0_r (cos M)), <- cos_PI2. eapply Rle_trans; [apply cos_lip|exact B2]. }
  assert (C2 : Rabs (sin M - 1) <= d). { rewrite <- sin_PI2. eapply Rle_trans; [apply sin_lipschitz|exact B2]. }
  assert (nL : 0 <= n * L) by (apply Rmult_le_pos; assumption). assert (D0 : 0 <= d) by (unfold d; apply Rmult_le_pos; lra).
  assert (F : a * (102 / 100 * d) + 11 * u * a * (1 + swing o t0) <= u * a * (75 + 3 * (n * L))).
  { apply transit_sum; try assumption. reflexivity. }
  destruct P as (P1 & P2 & P3). destruct T as (T1 & T2 & _). cbn [fst snd] in *. unfold near3. cbn [fst snd].
  assert (G : forall y z c, Rabs (y - z) <= 11 * u * a * (1 + swing o t0) -> Rabs c <= 1 + u -> z = c * (a * (sin M - 1)) + c * a \/ z = c * (- a * cos M) -> forall z', z' = z - c * (a * (sin M - 1)) /\ z = c * (a * (sin M - 1)) + c * a \/ z' = 0 /\ z = c * (- a * cos M) -> Rabs (y - z') <= u * a * (75 + 3 * (n * L))).
  { intros y z c K Hcc _ z' Hz. eapply Rle_trans; [|exact F]. replace (y - z') with ((y - z) + (z - z')) by ring. eapply Rle_trans; [apply Rabs_triang|]. rewrite Rplus_comm. apply Rplus_le_compat; [|exact K].
    assert (X : forall s, Rabs s <= d -> Rabs (c * (a * s)) <= a * (102 / 100 * d)). { intros s Hs. rewrite !Rabs_mult, (Rabs_pos_eq a) by lra. assert (Z1 := Rabs_pos c). assert (Z2 := Rabs_pos s). assert (Rabs c * Rabs s <= 102 / 100 * d) by (apply Rmult_le_compat; lra). nra. }
    destruct Hz as [[-> E]|[-> E]].
    - replace (z - (z - c * (a * (sin M - 1)))) with (c * (a * (sin M - 1))) by ring. apply X. exact C2.
    - rewrite E. replace (c * (- a * cos M) - 0) with (c * (a * (- cos M))) by ring. apply X. rewrite Rabs_Ropp. exact C1. }
  split; [|split].
  - apply (G _ _ 1 P1); [rewrite Rabs_R1; lra|right; ring|right; split; [reflexivity|ring]].
  - apply (G _ _ (- o_cos_incl o) P2); [rewrite Rabs_Ropp; exact T1|left; ring|left; split; ring].
  - apply (G _ _ (o_sin_incl o) P3); [exact T2|left; ring|left; split; ring].
Qed.
End V.
