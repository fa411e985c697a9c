(** * Proofs: rounding errors in the distributions *)
From Coq Require Import Reals List Bool Arith ZArith String Lra Lia Psatz FunctionalExtensionality.
From Verif Require Import Num CoreOps Inst CoreFlux M_units M_kepler M_kwargs M_tensor M_limbdark M_dist Spec_array Spec_light Spec_dist Spec_float Spec_float2 Spec_float3 Spec_float4
  L_real L_fl L_shapeS L_float L_float2 L_float3 L_dist1 L_dist2 L_dist3 L_float13.
Import ListNotations.
Local Notation length := List.length.
Open Scope R_scope.

Ltac simT := cbn [nlit nadd nsub nmul ndiv nneg nsqrt nsin ncos natan2 nlog npw rounded_tens rounded_fl amap amap2 alit aget].
Ltac simV := cbn [rnd value fmul fadd fsub fneg fdiv fsqrt flog ftrig fatan2].

Lemma angle_float : forall u rd, accurate u rd -> forall p name reg kw ss out, computed_angle rd p name reg kw = Ok (ss, out) ->
  exists n1 n2 kw1 kw2 rest, ss = Free [] n1 "Normal" kw1 :: Free [] n2 "Normal" kw2 :: rest /\ n1 <> n2 /\ List.Forall no_variable rest /\ In (Determ [] name out) rest /\
    forall e i x1 x2, aget (e n1) i = Fin x1 -> aget (e n2) i = Fin x2 -> x1 * x1 + x2 * x2 <> 0 ->
      exists th' th, aget (out e) i = Fin th' /\ Rabs th' <= PI * (1 + u) /\ - PI < th <= PI /\ Rabs (th' - th) <= u * Rabs th /\
        x1 = sqrt (x1 * x1 + x2 * x2) * sin th /\ x2 = sqrt (x1 * x1 + x2 * x2) * cos th.
Proof.
  intros u rd Acc p name reg kw ss out E. unfold computed_angle in E. destruct (angle_form _ _ _ _ _ _ E) as (kw1 & kw2 & -> & -> & _).
  exists (angle1 name), (angle2 name), kw1, kw2. eexists. split; [reflexivity|]. split; [apply angle_names|]. split; [apply angle_pot_novar|].
  split; [apply in_or_app; right; left; reflexivity|].
  intros e i x1 x2 E1 E2 N. unfold angle_out. simT. rewrite E1, E2. simV.
  exists (rd OAtan2 x1 x2 (Ratan2 x1 x2)), (Ratan2 x1 x2). split; [reflexivity|].
  destruct (turn_core u rd Acc x1 x2 x1 x2 N) as [T1 T2]. split; [exact T1|]. split; [apply Ratan2_bounds|]. split; [exact T2|].
  destruct (Ratan2_polar x1 x2) as [C S]; [lra|]. replace (x2 * x2 + x1 * x1) with (x1 * x1 + x2 * x2) in C, S by ring.
  rewrite C, S. assert (0 < sqrt (x1 * x1 + x2 * x2)) by (apply sqrt_lt_R0; nra). split; field; lra.
Qed.
Lemma angle_float_start : forall u rd, accurate u rd -> forall p name reg kw ss out v, computed_angle rd p name reg kw = Ok (ss, out) -> requested kw (PNum v) ->
  forall e i t, at_start p ss e -> aget v i = Fin t -> exists th, aget (out e) i = Fin th /\ Rabs (sin th - sin t) <= 7 * u /\ Rabs (cos th - cos t) <= 7 * u.
Proof.
  intros u rd Acc p name reg kw ss out v E HV e i t HE Hi. destruct (angle_form _ _ _ _ _ _ E) as (kw1 & kw2 & -> & -> & z & v' & _ & EV & F1 & F2).
  rewrite (pop_requested _ _ _ HV) in EV. injection EV as <-.
  assert (e (angle1 name) = @nsin _ _ (rounded_tens rd) v) as Q1 by (apply (HE [] _ "Normal"%string kw1); [left; reflexivity|exact (proj1 F1)]).
  assert (e (angle2 name) = @ncos _ _ (rounded_tens rd) v) as Q2 by (apply (HE [] _ "Normal"%string kw2); [right; left; reflexivity|exact (proj1 F2)]).
  unfold angle_out. simT. rewrite Q1, Q2. simT. rewrite Hi. simV. eexists. split; [reflexivity|]. apply (turn_start u rd Acc).
Qed.
Lemma angle_float_default : forall u rd, accurate u rd -> forall p name reg kw ss out, computed_angle rd p name reg kw = Ok (ss, out) -> not_requested kw ->
  forall e i, at_start p ss e -> aget (out e) i = Fin 0.
Proof.
  intros u rd Acc p name reg kw ss out E HV e i HE. destruct (angle_form _ _ _ _ _ _ E) as (kw1 & kw2 & -> & -> & z & v & EZ & EV & F1 & F2).
  rewrite (pop_default _ _ HV) in EV. injection EV as <-.
  assert (Hz : aget z i = Fin 0) by (destruct (match dget "shape" kw with Some s => s | None => PShape [] end); cbn in EZ; try discriminate EZ; injection EZ as <-; reflexivity).
  assert (e (angle1 name) = @nsin _ _ (rounded_tens rd) z) as Q1 by (apply (HE [] _ "Normal"%string kw1); [left; reflexivity|exact (proj1 F1)]).
  assert (e (angle2 name) = @ncos _ _ (rounded_tens rd) z) as Q2 by (apply (HE [] _ "Normal"%string kw2); [right; left; reflexivity|exact (proj1 F2)]).
  unfold angle_out. simT. rewrite Q1, Q2. simT. rewrite Hz. simV. rewrite sin_0, cos_0, (rd_zero u rd Acc). f_equal.
  assert (K := proj2 Acc OCos 0 0 1). rewrite (Rabs_pos_eq 1) in K by lra. apply abs_in in K. assert (U := proj1 Acc). set (c := rd OCos 0 0 1) in *.
  assert (Z : Ratan2 0 c = 0). { unfold Ratan2. destruct (Rlt_dec 0 c); [|lra]. unfold Rdiv. rewrite Rmult_0_l. apply atan_0. }
  rewrite Z. apply (rd_zero u rd Acc).
Qed.

Lemma disk_float : forall u rd, accurate u rd -> keeps_one rd -> forall p nx ny kw ss x y, computed_disk rd p nx ny kw = Ok (ss, (x, y)) ->
  exists n1 n2 kw1 kw2 rest q, ss = Free [] n1 "Uniform" kw1 :: Free [] n2 "Uniform" kw2 :: rest /\ List.Forall no_variable rest /\
    on_interval (-1) 1 kw1 /\ on_interval (-1) 1 kw2 /\ n1 = nx /\ In (Determ [] ny y) rest /\ potentials rest = [q] /\
    forall e i a b, aget (e n1) i = Fin a -> aget (e n2) i = Fin b -> -1 <= a <= 1 -> -1 <= b <= 1 ->
      aget (x e) i = Fin a /\
      (exists w, aget (y e) i = Fin w /\ 0 <= b * w /\ Rabs (w * w - b * b * (1 - a * a)) <= 7 * u /\ a * a + w * w <= 1 + 7 * u) /\
      (-1 < a < 1 -> 2 * u <= 1 - a * a ->
       exists g, aget (q e) i = Fin g /\ Rabs (g - ln (sqrt (1 - a * a))) <= u * (Rabs (ln (sqrt (1 - a * a))) + 2 / (1 - a * a))).
Proof.
  intros u rd Acc One p nx ny kw ss x y E. unfold computed_disk in E. destruct (disk_form _ _ _ _ _ _ _ E) as (kw1 & kw2 & f & -> & -> & -> & -> & s & z & v' & v0 & v1 & _ & _ & _ & _ & _ & (_ & _ & F1 & _) & (_ & _ & F2 & _)).
  exists nx, (disk2 ny), kw1, kw2. eexists. eexists. split; [reflexivity|]. split; [repeat constructor; [apply not_free_pot|apply not_free_det]|].
  split; [exact F1|]. split; [exact F2|]. split; [reflexivity|]. split; [right; left; reflexivity|]. split; [reflexivity|].
  intros e i a b E1 E2 Ha Hb. split; [exact E1|].
  assert (Ha' : Rabs a <= 1) by (apply Rabs_le; lra). assert (Hb' : Rabs b <= 1) by (apply Rabs_le; lra).
  simT. rewrite E1, E2. simV. rewrite (proj1 One).
  assert (D0 := disk_arg u rd Acc One a Ha' 1 (rd OMul a a (a * a))). unfold Rminus in D0.
  unfold Rltb. match goal with |- context [Rlt_dec ?X 0] => destruct (Rlt_dec X 0); [lra|] end. simV.
  split.
  - eexists. split; [reflexivity|]. match goal with |- context [rd OMul ?x2 ?y2 (b * rd OSqrt ?x' ?y' (sqrt (rd OSub ?x0 ?y0 _)))] => exact (disk_core u rd Acc One a b Ha' Hb' x0 y0 x' y' x2 y2) end.
  - intros Hi Hu. assert (P0 : 0 < 1 - a * a) by nra.
    match goal with |- context [rd OSqrt ?x' ?y' (sqrt (rd OSub ?x0 ?y0 _))] => destruct (disk_log u rd Acc One a Ha' x0 y0 x' y' (rd OSqrt x' y' (sqrt (rd OSub x0 y0 (1 - rd OMul a a (a * a))))) 0 P0 Hu) as [N L] end.
    unfold Rminus in N. unfold Rltb. match goal with |- context [Rlt_dec 0 ?X] => destruct (Rlt_dec 0 X); [|contradiction] end. eexists. split; [reflexivity|]. exact L.
Qed.

Lemma quad_float : forall u rd, accurate u rd -> forall p name kw ss out, computed_quad rd p name kw = Ok (ss, out) ->
  exists c n1 n2 kw1 kw2 rest f g, ss = c :: Free [] n1 "Uniform" kw1 :: Free [] n2 "Uniform" kw2 :: rest /\ no_variable c /\ n1 <> n2 /\ List.Forall no_variable rest /\
    on_interval 0 1 kw1 /\ on_interval 0 1 kw2 /\ In (Determ [] name out) rest /\ potentials ss = [] /\
    (forall e i s a b, ash (e n1) = Ok s -> ash (e n2) = Ok s -> aget (e n1) i = Fin a -> aget (e n2) i = Fin b -> 0 <= a ->
       ash (out e) = Ok (s ++ [2%nat]) /\
       (i (length s) = 0%nat -> aget (out e) i = Fin (f a b)) /\ (i (length s) = 1%nat -> aget (out e) i = Fin (g a b))) /\
    forall a b, 0 <= a <= 1 -> 0 <= b <= 1 ->
      Rabs (f a b - 2 * sqrt a * b) <= 10 * u /\ Rabs (g a b - sqrt a * (1 - 2 * b)) <= 30 * u /\
      0 <= f a b /\ f a b + g a b <= 1 + 40 * u /\ - (70 * u) <= f a b + 2 * g a b.
Proof.
  intros u rd Acc p name kw ss out E. unfold computed_quad in E. destruct (quad_form _ _ _ _ _ E) as (kw1 & kw2 & -> & -> & ? & ? & ? & _ & _ & _ & (_ & _ & F1 & _) & (_ & _ & F2 & _)).
  eexists. exists (quad1 name), (quad2 name), kw1, kw2. eexists.
  exists (fun a b => let s := rd OSqrt a 0 (sqrt a) in let T := rd OMul (rd OLit 2 0 2) b (rd OLit 2 0 2 * b) in rd OMul s T (s * T)).
  exists (fun a b => let s := rd OSqrt a 0 (sqrt a) in let T := rd OMul (rd OLit 2 0 2) b (rd OLit 2 0 2 * b) in let D := rd OSub (rd OLit 1 0 1) T (rd OLit 1 0 1 - T) in rd OMul s D (s * D)).
  split; [reflexivity|]. split; [intros ? ? ? ? Q; discriminate Q|]. split; [apply quad_names|]. split; [repeat constructor; apply not_free_det|].
  split; [exact F1|]. split; [exact F2|]. split; [left; reflexivity|]. split; [reflexivity|]. split.
  { intros e i s a b S1 S2 A0 B0 Ha. unfold quad_out.
    set (X := @nmul tens btens (rounded_tens rd) _ _). set (Y := @nmul tens btens (rounded_tens rd) _ _).
    assert (SX : ash X = Ok s). { unfold X. cbn [nmul nsqrt nlit rounded_tens rounded_fl amap2 amap alit ash]. rewrite S1, S2. cbn [bcr bc]. rewrite bc_refl. reflexivity. }
    assert (SY : ash Y = Ok s). { unfold Y. cbn [nmul nsqrt nsub nlit rounded_tens rounded_fl amap2 amap alit ash]. rewrite S1, S2. cbn [bcr bc]. rewrite bc_refl. reflexivity. }
    split; [apply stack2_shape; assumption|].
    split; intro Hi; [rewrite (stack2_0 X Y s i SX Hi)|rewrite (stack2_1 X Y s i SX Hi)]; unfold X, Y; simT; rewrite A0, B0; simV; unfold Rltb; (destruct (Rlt_dec a 0); [lra|]); simV; reflexivity. }
  intros a b Ha Hb. cbv beta zeta.
  assert (SQ := sqrt_pos a). assert (S3 : sqrt a <= 1) by (rewrite <- sqrt_1; apply sqrt_le_1_alt; lra). assert (U := proj1 Acc).
  match goal with |- Rabs (rd OMul ?x1 ?y1 _ - _) <= _ /\ Rabs (rd OMul ?x2 ?y2 (_ * rd OSub ?x3 ?y3 _) - _) <= _ /\ _ =>
    assert (K1 := quad_first u rd Acc a b x1 y1); assert (K2 := quad_second u rd Acc a b x2 y2 x3 y3); set (v1 := rd OMul x1 y1 _) in *; set (v2 := rd OMul x2 y2 _) in * end.
  set (q := sqrt a) in *. assert (QB : 0 <= q * b <= 1) by (split; nra). rewrite (Rabs_pos_eq (q * (2 * b))) in K1 by nra. rewrite (Rabs_pos_eq b) in K2 by lra.
  assert (B1' : q * (1 + 2 * b) <= 3) by nra.
  assert (E1 : 5 * u * (q * (2 * b)) <= 10 * u) by nra. assert (E2 : 10 * u * (q * (1 + 2 * b)) <= 30 * u) by (replace (30 * u) with (10 * u * 3) by ring; apply Rmult_le_compat_l; lra).
  assert (V1 : 0 <= v1). { apply abs_in in K1. nra. }
  apply abs_in in K1, K2. split; [apply Rabs_le; lra|]. split; [apply Rabs_le; lra|]. split; [exact V1|]. split; nra.
Qed.
Lemma quad_float_start : forall u rd, accurate u rd -> forall p name kw ss out v d, computed_quad rd p name kw = Ok (ss, out) -> requested kw (PNum v) -> ash v = Ok (d ++ [2%nat]) ->
  forall e i u1 u2, at_start p ss e -> aget v (set_ix (length d) 0 i) = Fin u1 -> aget v (set_ix (length d) 1 i) = Fin u2 -> 0 < u1 + u2 ->
    exists v1 v2, aget (out e) (set_ix (length d) 0 i) = Fin v1 /\ aget (out e) (set_ix (length d) 1 i) = Fin v2 /\
      Rabs (v1 - u1) <= 11 * u * Rabs u1 /\ Rabs (v2 - u2) <= 17 * u * (u1 + u2 + Rabs u1).
Proof.
  intros u rd Acc p name kw ss out v d E HV HD e i u1 u2 HE E0 E1 HP. assert (U := proj1 Acc).
  destruct (quad_form _ _ _ _ _ E) as (kw1 & kw2 & -> & -> & v' & v1 & v2 & EV & R0 & R1 & F1 & F2).
  rewrite (pop_requested _ _ _ HV) in EV. injection EV as <-.
  assert (LD : (length (d ++ [2%nat]) - 1)%nat = length d) by (rewrite app_length; cbn [length]; lia).
  assert (G1 : forall j, aget v1 j = aget v (set_ix (length d) 0 j)) by (intro j; rewrite (row_get _ _ _ j _ R0 HD), LD; reflexivity).
  assert (G2 : forall j, aget v2 j = aget v (set_ix (length d) 1 j)) by (intro j; rewrite (row_get _ _ _ j _ R1 HD), LD; reflexivity).
  assert (SH : forall n w, row v n = Ok w -> ash w = Ok d).
  { intros n w. unfold row. rewrite HD. destruct (d ++ [2%nat]) as [|q0 q] eqn:ED; [destruct d; discriminate|].
    rewrite <- ED. destruct (Nat.ltb _ _); [|discriminate]. intro Q. injection Q as <-. cbn [ash]. rewrite removelast_last. reflexivity. }
  assert (S1 := SH _ _ R0). assert (S2 := SH _ _ R1).
  assert (Q1 := HE [] _ "Uniform"%string kw1 _ (or_intror (or_introl eq_refl)) (proj1 F1)).
  assert (Q2 := HE [] _ "Uniform"%string kw2 _ (or_intror (or_intror (or_introl eq_refl))) (proj1 F2)).
  assert (SE1 : ash (e (quad1 name)) = Ok d).
  { rewrite Q1. cbn [npw nadd nmul rounded_tens rounded_fl amap2 ash]. rewrite S1, S2. cbn [bcr]. rewrite !bc_refl. cbn [bcr]. rewrite bc_refl. reflexivity. }
  assert (SI : forall a b j, set_ix (length d) a (set_ix (length d) b j) = set_ix (length d) a j).
  { intros a b j. extensionality ax. unfold set_ix. destruct (Nat.eqb ax (length d)); reflexivity. }
  assert (A1 : forall c, aget v1 (set_ix (length d) c i) = Fin u1) by (intro c; rewrite G1, SI; exact E0).
  assert (A2 : forall c, aget v2 (set_ix (length d) c i) = Fin u2) by (intro c; rewrite G2, SI; exact E1).
  set (w := rd OAdd u1 u2 (u1 + u2)). set (h := rd OMul (rd OLit (1 / 2) 0 (1 / 2)) u1 (rd OLit (1 / 2) 0 (1 / 2) * u1)).
  assert (W : ap (u / (1 - u)) 1 w (u1 + u2)). { unfold w. apply (ap_weak u U (0 + 1)); [|lra]. apply (rd_ap u rd Acc). apply (ap_refl u). }
  assert (PW : 0 < w) by (apply (ap_pos u 1 w (u1 + u2) W); exact HP).
  set (a := rd OMul w w (w * w)). set (b := rd ODiv h w (h / w)).
  assert (L1 : forall c, aget (e (quad1 name)) (set_ix (length d) c i) = Fin a).
  { intro c. rewrite Q1. simT. rewrite A1, A2. reflexivity. }
  assert (L2 : forall c, aget (e (quad2 name)) (set_ix (length d) c i) = Fin b).
  { intro c. rewrite Q2. simT. rewrite A1, A2. simV. fold w h. unfold Reqb. destruct (Req_EM_T w 0); [lra|reflexivity]. }
  assert (AA : ap (u / (1 - u)) 3 a ((u1 + u2) * (u1 + u2))).
  { unfold a. apply (ap_weak u U (1 + 1 + 1)); [|lra]. apply (rd_ap u rd Acc). apply (ap_mul u); exact W. }
  assert (AB : ap (u / (1 - u)) 4 b (1 / 2 * u1 / (u1 + u2))).
  { unfold b. apply (ap_weak u U (0 + 1 + 0 + 1 + 1 + 1)); [|lra]. apply (rd_ap u rd Acc). apply (ap_div u); [|exact W]. unfold h. apply (rd_ap u rd Acc). apply (ap_mul u); [|apply (ap_refl u)]. apply (rd_ap u rd Acc). apply (ap_refl u). }
  assert (Pa : 0 <= a). { left. apply (ap_pos u 3 a _ AA). nra. }
  unfold quad_out. set (X := @nmul tens btens (rounded_tens rd) _ _). set (Y := @nmul tens btens (rounded_tens rd) _ _).
  assert (AN : ash X = Ok d).
  { unfold X. cbn [nmul nsqrt nlit rounded_tens rounded_fl amap2 amap alit ash]. rewrite SE1. rewrite Q2. cbn [nadd nmul ndiv nlit rounded_tens rounded_fl amap2 alit ash].
    rewrite S1, S2. repeat (cbn [bcr bc]; rewrite ?bc_refl). reflexivity. }
  assert (Z : forall c, set_ix (length d) c i (length d) = c) by (intro c; unfold set_ix; rewrite Nat.eqb_refl; reflexivity).
  rewrite (stack2_0 X Y d _ AN (Z 0%nat)), (stack2_1 X Y d _ AN (Z 1%nat)). unfold X, Y. simT. rewrite !L1, !L2. simV. unfold Rltb. destruct (Rlt_dec a 0); [lra|]. simV.
  eexists. eexists. split; [reflexivity|]. split; [reflexivity|]. set (T := rd OMul (rd OLit 2 0 2) b (rd OLit 2 0 2 * b)). fold (rd OLit 1 0 1 - T).
  assert (AS : ap (u / (1 - u)) 2.5 (rd OSqrt a 0 (sqrt a)) (u1 + u2)).
  { apply (ap_weak u U (3 / 2 + 1)); [|lra]. apply (rd_ap u rd Acc). apply (ap_eq u (3 / 2) (sqrt a) (sqrt ((u1 + u2) * (u1 + u2)))); [|reflexivity|apply sqrt_square; lra]. apply (ap_sqrt u); [nra|exact AA]. }
  assert (AT : ap (u / (1 - u)) 6 T (u1 / (u1 + u2))).
  { apply (ap_eq u 6 T (2 * (1 / 2 * u1 / (u1 + u2)))); [|reflexivity|field; lra]. unfold T. apply (ap_weak u U (0 + 1 + 4 + 1)); [|lra]. apply (rd_ap u rd Acc). apply (ap_mul u); [|exact AB]. apply (rd_ap u rd Acc). apply (ap_refl u). }
  split.
  - match goal with |- Rabs (?x - u1) <= _ => assert (K : Rabs (x - (u1 + u2) * (u1 / (u1 + u2))) <= 11 * u * Rabs ((u1 + u2) * (u1 / (u1 + u2)))) end.
    { apply (rel_u u rd Acc 9.5); [|lra|lra]. apply (ap_weak u U (2.5 + 6 + 1)); [|lra]. apply (rd_ap u rd Acc). apply (ap_mul u); assumption. }
    replace ((u1 + u2) * (u1 / (u1 + u2))) with u1 in K by (field; lra). exact K.
  - match goal with |- Rabs (rd OMul ?x2 ?y2 (_ * rd OSub ?x3 ?y3 _) - _) <= _ => assert (K := limb_second u rd Acc 2.5 6 (u1 + u2) _ (u1 / (u1 + u2)) T x3 y3 x2 y2 ltac:(lra) AS AT ltac:(lra) ltac:(lra)) end. cbv zeta in K.
    replace ((u1 + u2) * (1 - u1 / (u1 + u2))) with u2 in K by (field; lra). eapply Rle_trans; [exact K|].
    assert (EQ : (u1 + u2) * (1 + Rabs (u1 / (u1 + u2))) = u1 + u2 + Rabs u1). { unfold Rdiv. rewrite Rabs_mult, Rabs_inv, (Rabs_pos_eq (u1 + u2)) by lra. field. lra. }
    rewrite EQ. apply Rmult_le_compat_r; [assert (P := Rabs_pos u1); lra|]. lra.
Qed.

Lemma impact_float : forall u rd, accurate u rd -> forall p name ror kw ss out, computed_impact rd p name ror kw = Ok (ss, out) ->
  exists n kw1 rest, ss = Free [] n "Uniform" kw1 :: rest /\ List.Forall no_variable rest /\ potentials ss = [] /\ on_interval 0 1 kw1 /\ In (Determ [] name out) rest /\
    forall e i k a, aget ror i = Fin k -> 0 <= k -> aget (e n) i = Fin a -> 0 <= a <= 1 ->
      exists b, aget (out e) i = Fin b /\ Rabs (b - a * (1 + k)) <= 4 * u * (a * (1 + k)) /\ 0 <= b <= (1 + 4 * u) * (1 + k).
Proof.
  intros u rd Acc p name ror kw ss out E. unfold computed_impact in E. destruct (impact_form _ _ _ _ _ _ E) as (kw1 & -> & -> & bh & b2 & _ & _ & F).
  exists (impact1 name), kw1. eexists. split; [reflexivity|]. split; [repeat constructor; apply not_free_det|]. split; [reflexivity|]. split.
  { intros k v H. destruct F as (_ & _ & F & _). apply F. apply in_or_app. right. exact H. }
  split; [left; reflexivity|].
  intros e i k a Ek Hk Ea Ha. assert (U := proj1 Acc). simT. rewrite Ek, Ea. simV. eexists. split; [reflexivity|].
  match goal with |- Rabs (?x - _) <= _ /\ _ => assert (K : Rabs (x - a * (1 + k)) <= 4 * u * Rabs (a * (1 + k))) end.
  { apply (rel_u u rd Acc 3); [|lra|lra]. apply (ap_weak u U (0 + (1 + 1) + 1)); [|lra]. apply (rd_ap u rd Acc). apply (ap_mul u); [apply (ap_refl u)|]. apply (rd_ap u rd Acc).
    apply (ap_add u); [lra|exact Hk| |apply (ap_weak u U 0); [apply (ap_refl u)|lra]]. apply (ap_weak u U (0 + 1)); [|lra]. apply (rd_ap u rd Acc). apply (ap_refl u). }
  assert (P : 0 <= a * (1 + k)) by nra. rewrite (Rabs_pos_eq _ P) in K. split; [exact K|]. apply abs_in in K. assert (a * (1 + k) <= 1 + k) by nra. split; nra.
Qed.
Lemma impact_float_start : forall u rd, accurate u rd -> forall p name ror kw ss out v, computed_impact rd p name ror kw = Ok (ss, out) -> requested kw (PNum v) ->
  forall e i k b, at_start p ss e -> aget ror i = Fin k -> 0 <= k -> aget v i = Fin b -> exists b', aget (out e) i = Fin b' /\ Rabs (b' - b) <= 3 * u * Rabs b.
Proof.
  intros u rd Acc p name ror kw ss out v E HV e i k b HE Ek Hk Hb. destruct (impact_form _ _ _ _ _ _ E) as (kw1 & -> & -> & bh & b2 & EV & EB & F). assert (U := proj1 Acc).
  rewrite (pop_requested _ _ _ HV) in EV. injection EV as <-.
  assert (Q := HE [] _ "Uniform"%string kw1 _ (or_introl eq_refl) (proj1 F)).
  simT. rewrite Q. simT. rewrite EB, Hb, Ek. simV. set (w := rd OAdd _ k _).
  assert (W : 0 < w). { apply (ap_pos u 2 w (1 + k)); [|lra]. unfold w. apply (ap_weak u U (1 + 1)); [|lra]. apply (rd_ap u rd Acc).
    apply (ap_add u); [lra|exact Hk| |apply (ap_weak u U 0); [apply (ap_refl u)|lra]]. apply (ap_weak u U (0 + 1)); [|lra]. apply (rd_ap u rd Acc). apply (ap_refl u). }
  unfold Reqb. destruct (Req_EM_T w 0); [lra|]. simV. eexists. split; [reflexivity|].
  match goal with |- Rabs (?x - b) <= _ => assert (K : Rabs (x - b / w * w) <= 3 * u * Rabs (b / w * w)) end.
  { apply (rel_u u rd Acc 2); [|lra|lra]. apply (ap_weak u U (0 + 1 + 0 + 1)); [|lra]. apply (rd_ap u rd Acc). apply (ap_mul u); [|apply (ap_refl u)]. apply (rd_ap u rd Acc). apply (ap_refl u). }
  replace (b / w * w) with b in K by (field; lra). exact K.
Qed.
