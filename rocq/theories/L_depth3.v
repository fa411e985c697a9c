(** * The depth of transits in light curves *)
From Coq Require Import Reals Lra Lia Psatz List Bool Arith ZArith.
From Coquelicot Require Import Coquelicot.
From Verif Require Import Num CoreOps Inst CoreFlux M_units M_kepler M_fin M_tensor M_limbdark M_simple Spec_orbit Spec_params Spec_array Spec_simple Spec_light Spec_depth
  L_real L_orbit L_params3 L_params4 L_simple L_transit L_flux L_area L_depth L_light1 L_light3 L_light4 L_light7 L_light8 L_depth2.
Import ListNotations.
Local Notation length := List.length.
Open Scope R_scope.

Lemma mean_le nodes weights f g t e : List.Forall (fun w => 0 < w) weights -> (forall x, In x nodes -> f (t + e * x) <= g (t + e * x)) -> node_mean nodes weights f t e <= node_mean nodes weights g t e.
Proof.
  unfold node_mean. revert weights. induction nodes as [|x nodes IH]; intros weights Hw H; [cbn; lra|]. destruct weights as [|w weights]; [cbn; lra|]. inversion Hw; subst. cbn [combine map fold_right fst snd].
  assert (A := H x ltac:(left; reflexivity)). assert (B := IH weights ltac:(assumption) ltac:(intros; apply H; right; assumption)). assert (w * f (t + e * x) <= w * g (t + e * x)) by (apply Rmult_le_compat_l; lra). lra.
Qed.
Lemma mean_const nodes weights f t e c : length nodes = length weights -> (forall x, In x nodes -> f (t + e * x) = c) -> node_mean nodes weights f t e = c * fold_right Rplus 0 weights.
Proof.
  unfold node_mean. revert weights. induction nodes as [|x nodes IH]; intros [|w weights] HL H; cbn in HL; try discriminate; [cbn; ring|]. cbn [combine map fold_right fst snd].
  rewrite (H x) by (left; reflexivity). rewrite (IH weights) by (try lia; intros; apply H; right; assumption). ring.
Qed.
Lemma flux_radius u1 u2 P r r' rst : bright u1 u2 -> disk_flux u1 u2 <> 0 -> 0 < rst -> 0 <= r <= r' -> flux_at u1 u2 P r' rst <= flux_at u1 u2 P r rst.
Proof.
  intros Hb Hd Hs Hr. unfold flux_at. apply rel_flux_radius; try assumption. unfold Rdiv. rewrite !Rabs_mult. apply Rmult_le_compat_r; [apply Rabs_pos|]. rewrite !Rabs_pos_eq by lra. lra.
Qed.
Lemma flux_nearer u1 u2 P P' r rst : bright u1 u2 -> darkening u1 u2 -> disk_flux u1 u2 <> 0 -> 0 < rst ->
  (0 < vz P -> apart P <= apart P' \/ vz P' <= 0) -> (vz P <= 0 -> vz P' <= 0) -> flux_at u1 u2 P r rst <= flux_at u1 u2 P' r rst.
Proof.
  intros Hb Hk Hd Hs H1 H2. unfold flux_at. assert (S := Rinv_0_lt_compat _ Hs). assert (Neg : forall z, z <= 0 -> z / rst <= 0) by (intros z Hz; unfold Rdiv; nra).
  assert (Out : forall b q z, z <= 0 -> rel_flux u1 u2 b q (z / rst) = 0) by (intros b q z Hz; apply rel_flux_out; [exact Hd|right; apply Neg, Hz]).
  destruct (Rle_dec (vz P) 0) as [h|h]; [rewrite !Out by auto; lra|]. assert (Hz : 0 < vz P) by lra. destruct (H1 Hz) as [h1|h1].
  - apply rel_flux_distance; try assumption; [|apply Rdiv_lt_0_compat; assumption]. fold (apart P) (apart P'). unfold Rdiv. rewrite !Rabs_mult. apply Rmult_le_compat_r; [apply Rabs_pos|]. unfold apart in *. rewrite !Rabs_pos_eq by apply sqrt_pos. exact h1.
  - rewrite (Out _ _ (vz P')) by exact h1. apply rel_flux_range; assumption.
Qed.
Lemma flux_flat P r rst : 0 < rst -> 0 <= r -> 0 < vz P -> apart P + r <= rst -> flux_at 0 0 P r rst = - (r / rst * (r / rst)).
Proof.
  intros Hs Hr Hz H. unfold flux_at. apply uniform_inside; [apply Rdiv_lt_0_compat; assumption|]. fold (apart P). assert (Ap : 0 <= apart P) by apply sqrt_pos.
  rewrite !Rabs_pos_eq by (apply Rdiv_le_0_compat; assumption). apply (Rmult_le_reg_r rst); [exact Hs|]. replace ((apart P / rst + r / rst) * rst) with (apart P + r) by (field; lra). lra.
Qed.
(** ** light curves of any orbit *)
Lemma curve_of u1 u2 A ld n P rst r rs N t ts texp es osam order : disk_flux u1 u2 <> 0 -> answers A ld n P -> planet_numbers n (oa_r_star A) rst -> (forall j, (j < n)%nat -> 0 < rst j) ->
  elements n r rs -> is_vector N t -> (forall m, (m < N)%nat -> aget t (at_time m) = Fin (ts m)) -> opt_exposures N texp es -> (texp <> None -> exists nodes weights, stencil osam order = Ok (nodes, weights)) ->
  exists X f, get_light_curve (ld_init (Fin u1) (Fin u2)) (Some A) (Some r) (Some t) texp osam order (Some false) ld = Ok X /\ light_table n N X f /\
    match texp with
    | None => forall m j, f m j = flux_at u1 u2 (P j (ts m)) (rs j) (rst j)
    | Some _ => exists nodes weights, stencil osam order = Ok (nodes, weights) /\ forall m j, f m j = node_mean nodes weights (fun s => flux_at u1 u2 (P j s) (rs j) (rst j)) (ts m) (es m)
    end.
Proof.
  intros Hd HA Hs Hp Hr Ht Hts He Hst. assert (Hn : forall j, (j < n)%nat -> rst j <> 0) by (intros j Hj; assert (Q := Hp j Hj); lra). destruct texp as [e|].
  - destruct (Hst ltac:(discriminate)) as (nodes & weights & St). destruct (lc_exposed u1 u2 A ld n P rst r rs N t ts e es osam order nodes weights Hd HA Hs Hn Hr Ht Hts He St) as (X & EX & TX).
    eexists X, _. split; [exact EX|]. split; [exact TX|]. exists nodes, weights. split; [exact St|reflexivity].
  - destruct (lc_plain u1 u2 A ld n P rst r rs N t ts osam order Hd HA Hs Hn Hr Ht Hts) as (X & EX & TX). eexists X, _. split; [exact EX|]. split; [exact TX|]. reflexivity.
Qed.
Lemma light_radius : forall u1 u2 A ld n P rst r rs r' rs' N t ts texp es osam order,
  disk_flux u1 u2 <> 0 -> bright u1 u2 -> answers A ld n P -> planet_numbers n (oa_r_star A) rst -> (forall j, (j < n)%nat -> 0 < rst j) ->
  elements n r rs -> elements n r' rs' -> (forall j, (j < n)%nat -> 0 <= rs j <= rs' j) ->
  is_vector N t -> (forall m, (m < N)%nat -> aget t (at_time m) = Fin (ts m)) -> opt_exposures N texp es -> (texp <> None -> exists nodes weights, stencil osam order = Ok (nodes, weights)) ->
  deeper n N (get_light_curve (ld_init (Fin u1) (Fin u2)) (Some A) (Some r) (Some t) texp osam order (Some false) ld)
             (get_light_curve (ld_init (Fin u1) (Fin u2)) (Some A) (Some r') (Some t) texp osam order (Some false) ld).
Proof.
  intros u1 u2 A ld n P rst r rs r' rs' N t ts texp es osam order Hd Hb HA Hs Hp Hr Hr' Hle Ht Hts He Hst.
  destruct (curve_of u1 u2 A ld n P rst r rs N t ts texp es osam order Hd HA Hs Hp Hr Ht Hts He Hst) as (X & f & EX & TX & F).
  destruct (curve_of u1 u2 A ld n P rst r' rs' N t ts texp es osam order Hd HA Hs Hp Hr' Ht Hts He Hst) as (X' & f' & EX' & TX' & F').
  exists X, X', f, f'. split; [exact EX|]. split; [exact EX'|]. split; [exact TX|]. split; [exact TX'|]. intros m j Hm Hj.
  destruct texp as [e|].
  - destruct F as (nodes & weights & St & F). destruct F' as (nodes' & weights' & St' & F'). rewrite St in St'. injection St' as <- <-. rewrite F, F'.
    apply mean_le; [apply (quadrature _ _ _ _ St)|]. intros x _. apply flux_radius; auto.
  - rewrite F, F'. apply flux_radius; auto.
Qed.
Lemma light_flat : forall A ld n P rst r rs N t ts texp es osam order,
  answers A ld n P -> planet_numbers n (oa_r_star A) rst -> (forall j, (j < n)%nat -> 0 < rst j) ->
  elements n r rs -> (forall j, (j < n)%nat -> 0 <= rs j) ->
  is_vector N t -> (forall m, (m < N)%nat -> aget t (at_time m) = Fin (ts m)) -> opt_exposures N texp es -> (forall m, (m < N)%nat -> 0 <= es m) ->
  (texp <> None -> exists nodes weights, stencil osam order = Ok (nodes, weights)) ->
  exists X f, get_light_curve (ld_init (Fin 0) (Fin 0)) (Some A) (Some r) (Some t) texp osam order (Some false) ld = Ok X /\ light_table n N X f /\
  forall m j, (m < N)%nat -> (j < n)%nat -> (forall s, Rabs (s - ts m) <= es m / 2 -> 0 < vz (P j s) /\ apart (P j s) + rs j <= rst j) ->
    f m j = - (rs j / rst j * (rs j / rst j)).
Proof.
  intros A ld n P rst r rs N t ts texp es osam order HA Hs Hp Hr Hr0 Ht Hts He He0 Hst. assert (Hd : disk_flux 0 0 <> 0) by (rewrite uniform_disk; apply PI_neq0).
  destruct (curve_of 0 0 A ld n P rst r rs N t ts texp es osam order Hd HA Hs Hp Hr Ht Hts He Hst) as (X & f & EX & TX & F).
  exists X, f. split; [exact EX|]. split; [exact TX|]. intros m j Hm Hj H. destruct texp as [e|].
  - destruct F as (nodes & weights & St & F). rewrite F. destruct (quadrature _ _ _ _ St) as (L & _ & _ & _ & W1 & Nd & _).
    rewrite (mean_const _ _ _ _ _ (- (rs j / rst j * (rs j / rst j))) L); [rewrite W1; ring|]. intros x Hx. rewrite Forall_forall in Nd. assert (B := Nd x Hx). assert (E0 := He0 m Hm).
    destruct (H (ts m + es m * x)) as [h1 h2]; [replace (ts m + es m * x - ts m) with (es m * x) by ring; apply Rabs_le; split; nra|]. apply flux_flat; auto.
  - rewrite F. destruct (H (ts m)) as [h1 h2]; [rewrite Rminus_diag_eq, Rabs_R0 by reflexivity; assert (Q := He0 m Hm); lra|]. apply flux_flat; auto.
Qed.
Lemma light_nearer : forall u1 u2 A ld n P rst r rs N t ts osam order,
  disk_flux u1 u2 <> 0 -> bright u1 u2 -> darkening u1 u2 -> answers A ld n P -> planet_numbers n (oa_r_star A) rst -> (forall j, (j < n)%nat -> 0 < rst j) ->
  elements n r rs -> is_vector N t -> (forall m, (m < N)%nat -> aget t (at_time m) = Fin (ts m)) ->
  exists X f, get_light_curve (ld_init (Fin u1) (Fin u2)) (Some A) (Some r) (Some t) None osam order (Some false) ld = Ok X /\ light_table n N X f /\
  forall m m' j, (m < N)%nat -> (m' < N)%nat -> (j < n)%nat -> 0 < vz (P j (ts m)) -> apart (P j (ts m)) <= apart (P j (ts m')) -> f m j <= f m' j.
Proof.
  intros u1 u2 A ld n P rst r rs N t ts osam order Hd Hb Hk HA Hs Hp Hr Ht Hts.
  destruct (curve_of u1 u2 A ld n P rst r rs N t ts None (fun _ => 0) osam order Hd HA Hs Hp Hr Ht Hts ltac:(intro; reflexivity) ltac:(intro H; destruct (H eq_refl))) as (X & f & EX & TX & F).
  exists X, f. split; [exact EX|]. split; [exact TX|]. intros m m' j Hm Hm' Hj Hz Hle. rewrite !F. apply flux_nearer; auto. lra.
Qed.
(** ** circular orbits *)
Lemma sin2_mono x y : 0 <= x <= y -> y <= PI / 2 -> sin x * sin x <= sin y * sin y.
Proof.
  intros H1 H2. assert (Hpi := PI_RGT_0). assert (0 <= sin x) by (apply sin_ge_0; lra). assert (sin x <= sin y) by (apply sin_incr_1; lra). apply Rmult_le_compat; lra.
Qed.
Lemma abs_trig x : sin (Rabs x) * sin (Rabs x) = sin x * sin x /\ cos (Rabs x) = cos x.
Proof. unfold Rabs. destruct (Rcase_abs x); [rewrite sin_neg, cos_neg; split; ring|split; reflexivity]. Qed.
Section C.
Variables (k : consts) (x x' : kargs R) (o o' : orbit R).
Hypothesis kok : consts_ok k.
Hypothesis Ho : kep_init k x = Ok o.
Hypothesis ph : physical o.
Hypothesis ci : o_ecc o = None.
Hypothesis si : 0 <= o_sin_incl o.
Hypothesis Ho' : kep_init k x' = Ok o'.
Hypothesis ph' : physical o'.
Hypothesis ci' : o_ecc o' = None.
Hypothesis si' : 0 <= o_sin_incl o'.
Hypothesis Ea : o_a o' = o_a o.
Hypothesis Er : o_r_star o' = o_r_star o.
Hypothesis Eb : o_b o * o_b o <= o_b o' * o_b o'.
Lemma b_unit : o_b o' * o_b o' * (o_r_star o * o_r_star o) <= o_a o * o_a o.
Proof.
  assert (B := acosi_b k kok x' o' Ho' ph' ci'). rewrite Ea, Er in B. replace (o_b o' * o_b o' * (o_r_star o * o_r_star o)) with ((o_a o * o_cos_incl o') * (o_a o * o_cos_incl o')) by (rewrite B; ring).
  replace (o_a o * o_cos_incl o' * (o_a o * o_cos_incl o')) with (o_a o * o_a o * (o_cos_incl o' * o_cos_incl o')) by ring. assert (C := ph_cosi _ ph'). assert (0 <= o_a o * o_a o) by apply Rle_0_sqr. assert (o_cos_incl o' * o_cos_incl o' <= 1) by nra. nra.
Qed.
Lemma circ_nearer t t' (z z' : Z) : let d := t - (o_t0 o + IZR z * o_period o) in let d' := t' - (o_t0 o' + IZR z' * o_period o') in
  Rabs d / o_period o <= Rabs d' / o_period o' <= 1 / 2 ->
  let p := pos k o Relative t None false in let p' := pos k o' Relative t' None false in
  (0 < vz p -> apart p <= apart p' \/ vz p' <= 0) /\ (vz p <= 0 -> (0 < o_sin_incl o \/ o_sin_incl o' = 0) -> vz p' <= 0).
Proof.
  intros d d' H p p'. assert (HP := ph_period _ ph). assert (HP' := ph_period _ ph'). assert (Ha := ph_a _ ph). assert (Hpi := PI_RGT_0).
  destruct (circ_geom k kok x o t Ho ph ci) as [G1 G2]. destruct (circ_geom k kok x' o' t' Ho' ph' ci') as [G3 G4]. rewrite Ea in G3, G4. rewrite Er in G3.
  change (get_relative_position k o (kep_warp o) t None false) with p in G1, G2. change (get_relative_position k o' (kep_warp o') t' None false) with p' in G3, G4.
  set (th := 2 * PI * d / o_period o). set (th' := 2 * PI * d' / o_period o').
  assert (E1 : 2 * PI * (t - o_t0 o) / o_period o = th + 2 * IZR z * PI) by (unfold th, d; field; lra). assert (E2 : 2 * PI * (t' - o_t0 o') / o_period o' = th' + 2 * IZR z' * PI) by (unfold th', d'; field; lra).
  rewrite E1, sin_period_Z, cos_period_Z in G1. rewrite E1, cos_period_Z in G2. rewrite E2, sin_period_Z, cos_period_Z in G3. rewrite E2, cos_period_Z in G4.
  assert (A1 : Rabs th = 2 * PI * (Rabs d / o_period o)). { unfold th. unfold Rdiv. rewrite !Rabs_mult, (Rabs_pos_eq 2), (Rabs_pos_eq PI), (Rabs_pos_eq (/ o_period o)) by (try lra; left; apply Rinv_0_lt_compat; lra). ring. }
  assert (A2 : Rabs th' = 2 * PI * (Rabs d' / o_period o')). { unfold th'. unfold Rdiv. rewrite !Rabs_mult, (Rabs_pos_eq 2), (Rabs_pos_eq PI), (Rabs_pos_eq (/ o_period o')) by (try lra; left; apply Rinv_0_lt_compat; lra). ring. }
  assert (A3 : Rabs th <= Rabs th' <= PI). { rewrite A1, A2. split; [apply Rmult_le_compat_l; lra|]. apply Rle_trans with (2 * PI * (1 / 2)); [apply Rmult_le_compat_l; lra|right; field]. }
  destruct (abs_trig th) as [S1 S2]. destruct (abs_trig th') as [S3 S4]. rewrite <- S1, <- S2 in G1. rewrite <- S2 in G2. rewrite <- S3, <- S4 in G3. rewrite <- S4 in G4.
  set (y := Rabs th) in *. set (y' := Rabs th') in *. assert (Y0 : 0 <= y) by apply Rabs_pos.
  assert (Neg : PI / 2 <= y' -> vz p' <= 0). { intro h. rewrite G4. assert (cos y' <= 0) by (apply cos_le_0; lra). assert (0 <= o_a o * o_sin_incl o') by (apply Rmult_le_pos; lra). nra. }
  split.
  - intro Hz. destruct (Rle_dec (PI / 2) y') as [h|h]; [right; apply Neg, h|]. left. unfold apart. apply sqrt_le_1_alt. rewrite G1, G3.
    assert (U := sin2_cos2' y). assert (U' := sin2_cos2' y'). assert (M := sin2_mono y y' ltac:(lra) ltac:(lra)). assert (B := b_unit).
    set (R2 := o_r_star o * o_r_star o) in *. assert (HR : 0 <= R2) by apply Rle_0_sqr. set (s := sin y * sin y) in *. set (s' := sin y' * sin y') in *.
    replace (cos y * cos y) with (1 - s) by lra. replace (cos y' * cos y') with (1 - s') by lra.
    assert (C0 : 0 <= 1 - s) by (assert (Q := Rle_0_sqr (cos y)); unfold Rsqr in Q; lra). assert (B1 : o_b o * o_b o * R2 <= o_b o' * o_b o' * R2) by (apply Rmult_le_compat_r; lra).
    assert (B2 : o_b o * o_b o * R2 * (1 - s) <= o_b o' * o_b o' * R2 * (1 - s)) by (apply Rmult_le_compat_r; lra).
    assert (B3 : 0 <= (o_a o * o_a o - o_b o' * o_b o' * R2) * (s' - s)) by (apply Rmult_le_pos; lra). lra.
  - intros Hz Hs. destruct (Rle_dec (PI / 2) y') as [h|h]; [apply Neg, h|]. destruct Hs as [Hs|Hs].
    + exfalso. assert (0 < cos y) by (apply cos_gt_0; lra). assert (0 < o_a o * o_sin_incl o * cos y) by (repeat apply Rmult_lt_0_compat; lra). lra.
    + rewrite G4, Hs. lra.
Qed.
End C.
Lemma circular_nearer : forall u1 u2 k n (x : kargs tens) xs os o cp r rs N t ts osam order,
  disk_flux u1 u2 <> 0 -> bright u1 u2 -> darkening u1 u2 -> consts_ok k -> system k n x xs os -> kep_init k x = Ok o ->
  (forall j, (j < n)%nat -> o_ecc (os j) = None /\ 0 <= o_sin_incl (os j)) ->
  elements n r rs -> is_vector N t -> (forall m, (m < N)%nat -> aget t (at_time m) = Fin (ts m)) ->
  exists X f, get_light_curve (ld_init (Fin u1) (Fin u2)) (Some (kep_api k cp o)) (Some r) (Some t) None osam order (Some false) false = Ok X /\ light_table n N X f /\
  forall m m' j (z z' : Z), (m < N)%nat -> (m' < N)%nat -> (j < n)%nat ->
    Rabs (ts m - (o_t0 (os j) + IZR z * o_period (os j))) <= Rabs (ts m' - (o_t0 (os j) + IZR z' * o_period (os j))) <= o_period (os j) / 2 -> f m j <= f m' j.
Proof.
  intros u1 u2 k n x xs os o cp r rs N t ts osam order Hd Hb Hk kok sys Ho Hc Hr Ht Hts. destruct (lc_kepler u1 u2 k n x xs os o cp r rs N t ts osam order Hd kok sys Ho Hr Ht Hts) as (X & EX & TX).
  eexists X, _. split; [exact EX|]. split; [exact TX|]. intros m m' j z z' Hm Hm' Hj H. destruct (Hc j Hj) as [Ec Es]. assert (ph := sy_phys _ _ _ _ _ sys j Hj). assert (HP := ph_period _ ph).
  destruct (circ_nearer k (xs j) (xs j) (os j) (os j) kok (sy_init _ _ _ _ _ sys j Hj) ph Ec (sy_init _ _ _ _ _ sys j Hj) ph Ec Es eq_refl eq_refl (Rle_refl _) (ts m) (ts m') z z') as [C1 C2].
  { split; [apply div_le_r; lra|]. apply (Rmult_le_reg_r (o_period (os j))); [exact HP|]. unfold Rdiv at 1. rewrite Rmult_assoc, Rinv_l by lra. lra. }
  apply flux_nearer; try assumption; [apply (ph_r_star _ ph)|]. intro h. apply C2; [exact h|]. destruct Es; [left; assumption|right; symmetry; assumption].
Qed.
