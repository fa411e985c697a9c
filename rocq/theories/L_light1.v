(** * Limb darkening and relative flux *)
From Coq Require Import Reals Lra Lia Psatz List Bool Arith ZArith.
From Coquelicot Require Import Coquelicot.
From Verif Require Import Num CoreOps Inst CoreFlux M_units M_kepler M_tensor M_limbdark Spec_orbit Spec_array Spec_light L_real L_fl L_flux L_shapeS L_reshape.
Import ListNotations.
Open Scope R_scope.

Lemma intensity_combo u1 u2 mu : intensity u1 u2 mu = combo (1 - u1 - 1.5 * u2) (u1 + 2 * u2) (-0.25 * u2) mu.
Proof. unfold intensity, combo, basis0, basis1, basis2. lra. Qed.
Lemma intensity_cont u1 u2 x : continuous (intensity u1 u2) x.
Proof. apply (ex_derive_continuous (intensity u1 u2)). unfold intensity. auto_derive. exact I. Qed.
Lemma disk_full u1 u2 : disk_flux u1 u2 = full_flux (intensity u1 u2).
Proof.
  unfold disk_flux, full_flux. rewrite <- (RInt_scal (V := R_CompleteNormedModule)).
  - apply RInt_ext. intros x _. unfold scal, mu_of. cbn. unfold mult. cbn. ring.
  - apply (ex_RInt_continuous (V := R_CompleteNormedModule)). intros z _.
    apply (continuous_mult (K := R_AbsRing) (fun rho => intensity u1 u2 (sqrt (1 - rho * rho))) (fun rho => rho)); [|apply continuous_id].
    apply (continuous_comp mu_of (intensity u1 u2)); [apply mu_cont|apply intensity_cont].
Qed.
Lemma disk_value u1 u2 : disk_flux u1 u2 = PI * (1 - u1 / 3 - u2 / 6).
Proof.
  rewrite disk_full. unfold full_flux. rewrite (RInt_ext _ (fun rho => combo (1 - u1 - 1.5 * u2) (u1 + 2 * u2) (-0.25 * u2) (mu_of rho) * (2 * PI) * rho)).
  - fold (full_flux (combo (1 - u1 - 1.5 * u2) (u1 + 2 * u2) (-0.25 * u2))). rewrite full_combo. field_simplify. lra.
  - intros x _. rewrite intensity_combo. reflexivity.
Qed.
Lemma norm_value u1 u2 : PI * (1 - u1 - 1.5 * u2 + (u1 + 2 * u2) / 1.5) = disk_flux u1 u2.
Proof. rewrite disk_value. replace ((u1 + 2 * u2) / 1.5) with ((u1 + 2 * u2) * (2 / 3)) by (field_simplify; lra). lra. Qed.

Lemma visible_intensity u1 u2 b r : 0 <= b -> 0 <= r ->
  visible_flux (intensity u1 u2) b r =
  (1 - u1 - 1.5 * u2) * visible_flux basis0 b r + (u1 + 2 * u2) * visible_flux basis1 b r + (-0.25 * u2) * visible_flux basis2 b r.
Proof.
  intros Hb Hr. rewrite <- visible_lin by assumption. apply RInt_ext. intros x _. rewrite intensity_combo. reflexivity.
Qed.

Lemma Reqb_ne x y : x <> y -> Reqb x y = false.
Proof. intro H. unfold Reqb. destruct (Req_EM_T x y); [contradiction|reflexivity]. Qed.
Lemma cl_fin u1 u2 : disk_flux u1 u2 <> 0 ->
  get_cl (Fin u1) (Fin u2) =
  (Fin ((1 - u1 - 1.5 * u2) / disk_flux u1 u2), Fin ((u1 + 2 * u2) / disk_flux u1 u2), Fin (-0.25 * u2 / disk_flux u1 u2)).
Proof.
  intro H. unfold get_cl. cbn -[PI]. rewrite (Reqb_ne 1.5 0) by lra. cbn -[PI]. unfold fsub. cbn -[PI].
  replace (PI * (1 + - u1 + - (1.5 * u2) + (u1 + 2 * u2) / 1.5)) with (disk_flux u1 u2) by (rewrite <- norm_value; unfold Rdiv; ring).
  rewrite (Reqb_ne _ _ H). reflexivity.
Qed.
Lemma fquad_fin u1 u2 b r : disk_flux u1 u2 <> 0 ->
  fquad (ld_c (ld_init (Fin u1) (Fin u2))) (Fin b) (Fin r) = Fin (visible_flux (intensity u1 u2) (Rabs b) (Rabs r) / disk_flux u1 u2 - 1).
Proof.
  intro H. unfold ld_init, ld_c. rewrite (cl_fin u1 u2 H). unfold fquad. cbn [nsub nadd nmul nlit NumF]. unfold flux_op, exact_flux, fsolution, fsub. cbn [fmul fadd fneg].
  rewrite (visible_intensity u1 u2 (Rabs b) (Rabs r)) by apply Rabs_pos. f_equal. field. exact H.
Qed.

Lemma flux_elt u1 u2 b r los i bi ri li : disk_flux u1 u2 <> 0 -> aget b i = Fin bi -> aget r i = Fin ri -> aget los i = Fin li ->
  aget (compute_light_curve (ld_init (Fin u1) (Fin u2)) b r (Some los)) i = Fin (rel_flux u1 u2 bi ri li).
Proof.
  intros H Hb Hr Hl. unfold compute_light_curve, quad_light_curve, rel_flux. cbn [nsw nlt nlit nzl NumT amap3 amap2 amap alit aget].
  rewrite Hb, Hr, Hl. cbn [flt]. unfold Rltb. destruct (Rlt_dec 0 li); [apply fquad_fin; exact H|reflexivity].
Qed.
Lemma flux_sh l (b r los : tens) s : ash b = Ok s -> ash r = Ok s -> ash los = Ok s -> ash (compute_light_curve l b r (Some los)) = Ok s.
Proof.
  intros Hb Hr Hl. unfold compute_light_curve, quad_light_curve. cbn [nsw nlt nlit nzl NumT amap3 amap2 amap alit ash].
  rewrite Hb, Hr, Hl. cbn [bcr bc]. rewrite bc_refl. cbn [bcr]. rewrite bc_refl. cbn [bcr]. rewrite bc_refl. reflexivity.
Qed.

(** ** the relative flux *)
Lemma bright_disk u1 u2 : bright u1 u2 -> 0 <= disk_flux u1 u2.
Proof.
  intro Hb. rewrite disk_full. unfold full_flux. apply RInt_ge_0; [lra| |].
  - eexists. apply (is_RInt_ext (fun rho => combo (1 - u1 - 1.5 * u2) (u1 + 2 * u2) (-0.25 * u2) (mu_of rho) * (2 * PI) * rho)).
    + intros x _. rewrite intensity_combo. reflexivity.
    + apply full_lin.
  - intros x Hx. assert (P := Hb (mu_of x) (mu_bound x ltac:(lra))). assert (Hpi := PI_RGT_0). apply Rmult_le_pos; [apply Rmult_le_pos; lra|lra].
Qed.
Lemma bright_range u1 u2 b r : bright u1 u2 -> 0 <= b -> 0 <= r -> 0 <= visible_flux (intensity u1 u2) b r <= disk_flux u1 u2.
Proof.
  intros H Hb Hr. rewrite visible_intensity by assumption. rewrite <- visible_lin by assumption.
  rewrite <- norm_value. replace (PI * (1 - u1 - 1.5 * u2 + (u1 + 2 * u2) / 1.5)) with (full_flux (combo (1 - u1 - 1.5 * u2) (u1 + 2 * u2) (-0.25 * u2))).
  2:{ rewrite full_combo. replace ((u1 + 2 * u2) / 1.5) with ((u1 + 2 * u2) * (2 / 3)) by (field_simplify; lra). lra. }
  apply visible_range; [assumption|assumption|]. intros mu Hmu. rewrite <- intensity_combo. apply H. exact Hmu.
Qed.
Lemma rel_flux_range u1 u2 b r los : bright u1 u2 -> disk_flux u1 u2 <> 0 -> -1 <= rel_flux u1 u2 b r los <= 0.
Proof.
  intros H Hd. assert (D := bright_disk u1 u2 H). assert (D' : 0 < disk_flux u1 u2) by lra. unfold rel_flux. destruct (Rlt_dec 0 los); [|lra].
  assert (V := bright_range u1 u2 (Rabs b) (Rabs r) H (Rabs_pos b) (Rabs_pos r)).
  assert (0 <= visible_flux (intensity u1 u2) (Rabs b) (Rabs r) / disk_flux u1 u2) by (apply Rdiv_le_0_compat; lra).
  assert (visible_flux (intensity u1 u2) (Rabs b) (Rabs r) / disk_flux u1 u2 <= 1) by (apply Rmult_le_reg_r with (disk_flux u1 u2); [exact D'|]; field_simplify; lra). lra.
Qed.
Lemma rel_flux_out u1 u2 b r los : disk_flux u1 u2 <> 0 -> 1 + Rabs r <= Rabs b \/ los <= 0 -> rel_flux u1 u2 b r los = 0.
Proof.
  intros Hd H. unfold rel_flux. destruct (Rlt_dec 0 los) as [Hl|Hl]; [|reflexivity]. destruct H as [H|H]; [|lra].
  rewrite visible_out_full, <- disk_full by (try apply Rabs_pos; exact H). field. exact Hd.
Qed.
Lemma rel_flux_covered u1 u2 b r los : disk_flux u1 u2 <> 0 -> 0 < los -> 1 + Rabs b <= Rabs r -> rel_flux u1 u2 b r los = -1.
Proof.
  intros Hd Hl H. unfold rel_flux. destruct (Rlt_dec 0 los); [|contradiction]. rewrite visible_covered_0 by exact H. field. exact Hd.
Qed.

(** ** an overlapping disk takes light away *)
Section Strict.
Variables (g : R -> R) (b r : R).
Hypothesis gc : forall x, continuous g x.
Hypothesis gp : forall mu, 0 < mu <= 1 -> 0 < g mu.
Hypothesis Hb : 0 <= b.
Hypothesis Hr : 0 < r.
Hypothesis Hov : b < 1 + r.
Let F rho := g (mu_of rho) * visible_angle b r rho * rho.
Let G rho := g (mu_of rho) * (2 * PI) * rho.
Let p := Rmax 0 (b - r).
Let q := Rmin 1 (b + r).
Lemma pq : 0 <= p /\ p < q /\ q <= 1 /\ b - r <= p /\ q <= b + r.
Proof. unfold p, q, Rmax, Rmin. destruct (Rle_dec 0 (b - r)), (Rle_dec 1 (b + r)); lra. Qed.
Lemma mu_pos x : 0 <= x < 1 -> 0 < mu_of x <= 1.
Proof. intro H. split; [unfold mu_of; apply sqrt_lt_R0; nra|apply mu_bound; lra]. Qed.
Lemma G_cont x : continuous G x.
Proof.
  apply (continuous_mult (K := R_AbsRing) (fun rho => g (mu_of rho) * (2 * PI)) (fun rho => rho)); [|apply continuous_id].
  apply (continuous_mult (K := R_AbsRing) (fun rho => g (mu_of rho)) (fun _ => 2 * PI)); [|apply continuous_const].
  apply (continuous_comp mu_of g); [apply mu_cont|apply gc].
Qed.
Lemma G_int x y : ex_RInt G x y.
Proof. apply (ex_RInt_continuous (V := R_CompleteNormedModule)). intros z _. apply G_cont. Qed.
Lemma F_int : ex_RInt F 0 1.
Proof. apply flux_int; [exact gc|exact Hb|lra]. Qed.
Lemma F_int01 x y : 0 <= x -> x <= y -> y <= 1 -> ex_RInt F x y.
Proof.
  intros Hx Hxy Hy. apply (ex_RInt_Chasles_1 (V := R_CompleteNormedModule)) with 1; [lra|]. apply (ex_RInt_Chasles_2 (V := R_CompleteNormedModule)) with 0; [lra|]. exact F_int.
Qed.
Lemma F_le x : 0 <= x < 1 -> F x <= G x.
Proof.
  intro Hx. unfold F, G. assert (P := gp _ (mu_pos x Hx)). assert (V := visible_bounds b r x). apply Rmult_le_compat_r; [lra|]. apply Rmult_le_compat_l; lra.
Qed.
Lemma part_le x y : 0 <= x -> x <= y -> y <= 1 -> RInt F x y <= RInt G x y.
Proof. intros Hx Hxy Hy. apply RInt_le; [exact Hxy|apply F_int01; assumption|apply G_int|]. intros z Hz. apply F_le. lra. Qed.
Lemma middle_lt : RInt F p q < RInt G p q.
Proof.
  destruct pq as (P1 & P2 & P3 & P4 & P5). assert (Hpi := PI_RGT_0). destruct (Rle_lt_or_eq_dec 0 b Hb) as [Hb'|Hb'].
  - apply RInt_lt; [exact P2|intros; apply G_cont| |].
    + intros x Hx. destruct (Rle_lt_or_eq_dec 0 x ltac:(lra)) as [Hx'|Hx'].
      * apply (F_cont_pos g gc b r ltac:(lra) x Hb' Hx').
      * subst x. apply (F_cont_0 g gc b r).
    + intros x Hx. unfold F, G. assert (Hx1 : 0 < x < 1) by lra. assert (P := gp _ (mu_pos x ltac:(lra))).
      apply Rmult_lt_compat_r; [lra|]. apply Rmult_lt_compat_l; [lra|]. unfold visible_angle.
      rewrite (hidden_acos b r x Hb' ltac:(lra) ltac:(lra)). set (K := (x * x + b * b - r * r) / (2 * x * b)).
      assert (HK : K < 1). { assert (D : 0 < 2 * x * b) by nra. apply Rmult_lt_reg_r with (2 * x * b); [exact D|].
        replace (K * (2 * x * b)) with (x * x + b * b - r * r) by (unfold K; field; lra). nra. }
      assert (0 < acos K); [|lra]. destruct (Rle_dec K (-1)) as [h|h]; [rewrite acos_outm1 by exact h; exact Hpi|].
      destruct (Rle_lt_or_eq_dec 0 (acos K) (proj1 (acos_bound K))) as [|E]; [assumption|]. exfalso.
      assert (C := cos_acos K ltac:(lra)). rewrite <- E, cos_0 in C. lra.
  - rewrite (RInt_ext F (fun _ => 0)).
    + apply RInt_lt; [exact P2|intros; apply G_cont|intros; apply continuous_const|]. intros x Hx. unfold G.
      assert (P := gp _ (mu_pos x ltac:(lra))). apply Rmult_lt_0_compat; [apply Rmult_lt_0_compat; lra|lra].
    + intros x Hx. rewrite Rmin_left, Rmax_right in Hx by lra. unfold F, visible_angle, hidden_angle. 
      destruct (Rle_dec (x + b) r) as [h|h]; [match goal with |- @eq _ ?a ?b => change (@eq R a b) end; ring|]. exfalso. apply h. lra.
Qed.
Lemma visible_lt : visible_flux g b r < full_flux g.
Proof.
  destruct pq as (P1 & P2 & P3 & P4 & P5). unfold visible_flux, full_flux. fold F. fold G.
  rewrite <- (RInt_Chasles F 0 p 1), <- (RInt_Chasles F p q 1), <- (RInt_Chasles G 0 p 1), <- (RInt_Chasles G p q 1); try apply G_int; try (apply F_int01; lra).
  repeat match goal with |- context [@plus ?V ?a ?b] => change (@plus V a b) with (a + b) end. assert (A := part_le 0 p ltac:(lra) ltac:(lra) ltac:(lra)). assert (B := part_le q 1 ltac:(lra) ltac:(lra) ltac:(lra)). assert (C := middle_lt). lra.
Qed.
End Strict.

Lemma rel_flux_in u1 u2 b r los : (forall mu, 0 < mu <= 1 -> 0 < intensity u1 u2 mu) -> 0 < r -> Rabs b < 1 + r -> 0 < los -> rel_flux u1 u2 b r los < 0.
Proof.
  intros Hp Hr Hb Hl. unfold rel_flux. destruct (Rlt_dec 0 los); [|contradiction]. rewrite (Rabs_pos_eq r) by lra.
  assert (V := visible_lt (intensity u1 u2) (Rabs b) r (intensity_cont u1 u2) Hp (Rabs_pos b) Hr Hb). rewrite <- disk_full in V.
  assert (D : 0 < disk_flux u1 u2).
  { assert (Q : visible_flux (intensity u1 u2) 0 2 < disk_flux u1 u2).
    { rewrite disk_full. apply (visible_lt (intensity u1 u2) 0 2 (intensity_cont u1 u2) Hp); lra. }
    rewrite visible_covered_0 in Q by lra. exact Q. }
  assert (visible_flux (intensity u1 u2) (Rabs b) r / disk_flux u1 u2 < 1); [|lra].
  apply Rmult_lt_reg_r with (disk_flux u1 u2); [exact D|]. replace (visible_flux (intensity u1 u2) (Rabs b) r / disk_flux u1 u2 * disk_flux u1 u2) with (visible_flux (intensity u1 u2) (Rabs b) r) by (field; lra). lra.
Qed.
