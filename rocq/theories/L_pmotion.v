(** * Proofs of the properties of the motion *)
From Coq Require Import Reals Lra Lia ZArith Bool List.
From Coquelicot Require Import Coquelicot.
From Verif Require Import Num CoreOps Inst M_units M_kepler L_real L_kepop Spec_orbit L_orbit L_motion.
Open Scope R_scope.

Lemma sqz3_id (v : R * R * R) : sqz3 v = v.
Proof. destruct v as [[a b] c]. reflexivity. Qed.

(** light-delay-free evaluation *)
Section S.
Variable k : consts.
Hypothesis kok : consts_ok k.
Variable x : kargs R.
Variable o : orbit R.
Hypothesis Hinit : kep_init k x = Ok o.
Hypothesis Hph : physical o.
Let F := kep_init_facts k kok x o Hinit Hph.
Local Notation W := (kep_warp o).

Definition plxf (par : option R) := match par with None => 1 | Some p => p * au_per_R_sun k end.

Lemma planet_pos t par : get_planet_position k o W t par false = lin o (o_a_planet o * plxf par) t.
Proof. unfold get_planet_position, get_position. rewrite sqz3_id. eapply position_form; eauto. Qed.
Lemma star_pos t par : get_star_position k o W t par false = lin o (o_a_star o * plxf par) t.
Proof. unfold get_star_position, get_position. rewrite sqz3_id. eapply position_form; eauto. Qed.
Lemma rel_pos t par : get_relative_position k o W t par false = lin o (- o_a o * plxf par) t.
Proof. unfold get_relative_position, get_position. rewrite sqz3_id. eapply position_form; eauto. Qed.

Lemma mt_pos : 0 < o_m_total o.
Proof. eapply mtot_pos; eauto. Qed.

Lemma planet_vel t : get_planet_velocity o W t = vlin o (o_a_planet o) t.
Proof.
  unfold get_planet_velocity. rewrite sqz3_id. rewrite (velocity_form k kok x o Hinit Hph).
  f_equal. rewrite (of_a_planet _ _ _ F). simR. field. generalize mt_pos; lra.
Qed.
Lemma star_vel t : get_star_velocity o W t = vlin o (o_a_star o) t.
Proof.
  unfold get_star_velocity. rewrite sqz3_id. rewrite (velocity_form k kok x o Hinit Hph).
  f_equal. rewrite (of_a_star _ _ _ F). simR. field. generalize mt_pos; lra.
Qed.
Lemma rel_vel t : get_relative_velocity o W t = vlin o (- o_a o) t.
Proof.
  unfold get_relative_velocity. rewrite sqz3_id. rewrite (velocity_form k kok x o Hinit Hph).
  f_equal. simR. field. generalize mt_pos; lra.
Qed.

Lemma planet_acc t : 0 < o_m_star o -> get_planet_acceleration o W t = alin o (o_a_planet o) t.
Proof.
  intros Hm. unfold get_planet_acceleration. rewrite sqz3_id.
  assert (Ha := ph_a _ Hph). assert (Ht := mt_pos).
  apply (acceleration_form k kok x o Hinit Hph).
  - rewrite (of_a_planet _ _ _ F). simR. field. lra.
  - rewrite (of_a_planet _ _ _ F). apply Rlt_not_eq. unfold Rdiv.
    apply Rmult_lt_reg_r with (o_m_total o); auto. rewrite Rmult_assoc, Rinv_l by lra. nra.
Qed.
Lemma star_acc t : 0 < o_m_planet o -> get_star_acceleration o W t = alin o (o_a_star o) t.
Proof.
  intros Hm. unfold get_star_acceleration. rewrite sqz3_id.
  assert (Ha := ph_a _ Hph). assert (Ht := mt_pos).
  apply (acceleration_form k kok x o Hinit Hph).
  - rewrite (of_a_star _ _ _ F). simR. field. lra.
  - rewrite (of_a_star _ _ _ F). apply Rgt_not_eq. apply Rdiv_lt_0_compat; auto. nra.
Qed.
Lemma rel_acc t : get_relative_acceleration o W t = alin o (- o_a o) t.
Proof.
  unfold get_relative_acceleration. rewrite sqz3_id.
  assert (Ha := ph_a _ Hph). assert (Ht := mt_pos).
  apply (acceleration_form k kok x o Hinit Hph).
  - simR. field. lra.
  - simR. lra.
Qed.

(** C11 *)
Lemma a_balance : o_m_planet o * o_a_planet o + o_m_star o * o_a_star o = 0.
Proof.
  rewrite (of_a_star _ _ _ F), (of_a_planet _ _ _ F). field. generalize mt_pos; lra.
Qed.
Lemma lin_comb c1 c2 m1 m2 t : m1 * c1 + m2 * c2 = 0 ->
  vadd (vscale m1 (lin o c1 t)) (vscale m2 (lin o c2 t)) = (0, 0, 0) /\
  vadd (vscale m1 (vlin o c1 t)) (vscale m2 (vlin o c2 t)) = (0, 0, 0) /\
  vadd (vscale m1 (alin o c1 t)) (vscale m2 (alin o c2 t)) = (0, 0, 0).
Proof.
  intros H. unfold lin, vlin, alin. vcrush. unfold Rdiv. repeat split; apply vec_eq;
  match goal with |- ?e = 0 => idtac end;
  first
  [ match goal with |- context [px o t * ?p] => idtac | |- _ => idtac end;
    match goal with
    | |- m1 * (c1 * px o t * ?p + c1 * py o t * ?q) + _ = 0 =>
        transitivity ((m1 * c1 + m2 * c2) * (px o t * p + py o t * q)); [ring|rewrite H; ring]
    end
  | match goal with
    | |- m1 * (c1 * ?n * ?s * ?d * ?p + c1 * ?n * ?s' * ?d * ?q) + _ = 0 =>
        transitivity ((m1 * c1 + m2 * c2) * (n * s * d * p + n * s' * d * q)); [ring|rewrite H; ring]
    end
  | match goal with
    | |- m1 * (- c1 * ?n * ?s * ?d * ?p + - c1 * ?n * ?s' * ?d * ?q) + _ = 0 =>
        transitivity (- (m1 * c1 + m2 * c2) * (n * s * d * p + n * s' * d * q)); [ring|rewrite H; ring]
    end ].
Qed.

Lemma lin_sub c1 c2 t :
  vsub (lin o c1 t) (lin o c2 t) = lin o (c1 - c2) t /\
  vsub (vlin o c1 t) (vlin o c2 t) = vlin o (c1 - c2) t /\
  vsub (alin o c1 t) (alin o c2 t) = alin o (c1 - c2) t.
Proof. unfold lin, vlin, alin. vcrush. unfold Rdiv. repeat split; apply vec_eq; ring. Qed.

Lemma a_diff : o_a_planet o - o_a_star o = - o_a o.
Proof.
  rewrite (of_a_star _ _ _ F), (of_a_planet _ _ _ F), (of_mtot _ _ _ F). field.
  generalize mt_pos; rewrite (of_mtot _ _ _ F); lra.
Qed.

Lemma com_pos t : vadd (vscale (o_m_planet o) (get_planet_position k o W t None false))
                       (vscale (o_m_star o) (get_star_position k o W t None false)) = (0, 0, 0).
Proof.
  rewrite planet_pos, star_pos. apply lin_comb. cbn [plxf]. generalize a_balance. lra.
Qed.
Lemma com_vel t : vadd (vscale (o_m_planet o) (get_planet_velocity o W t))
                       (vscale (o_m_star o) (get_star_velocity o W t)) = (0, 0, 0).
Proof. rewrite planet_vel, star_vel. apply lin_comb, a_balance. Qed.
Lemma com_acc t : 0 < o_m_planet o -> 0 < o_m_star o ->
  vadd (vscale (o_m_planet o) (get_planet_acceleration o W t))
       (vscale (o_m_star o) (get_star_acceleration o W t)) = (0, 0, 0).
Proof. intros. rewrite planet_acc, star_acc by auto. apply lin_comb, a_balance. Qed.

(** C12 *)
Lemma rel_pos_eq t par : get_relative_position k o W t par false =
  vsub (get_planet_position k o W t par false) (get_star_position k o W t par false).
Proof.
  rewrite planet_pos, star_pos, rel_pos. destruct (lin_sub (o_a_planet o * plxf par) (o_a_star o * plxf par) t) as [-> _].
  f_equal. rewrite <- a_diff. ring.
Qed.
Lemma rel_vel_eq t : get_relative_velocity o W t =
  vsub (get_planet_velocity o W t) (get_star_velocity o W t).
Proof.
  rewrite planet_vel, star_vel, rel_vel. destruct (lin_sub (o_a_planet o) (o_a_star o) t) as (_ & -> & _).
  f_equal. rewrite <- a_diff. ring.
Qed.
Lemma rel_acc_eq t : 0 < o_m_planet o -> 0 < o_m_star o -> get_relative_acceleration o W t =
  vsub (get_planet_acceleration o W t) (get_star_acceleration o W t).
Proof.
  intros. rewrite planet_acc, star_acc, rel_acc by auto.
  destruct (lin_sub (o_a_planet o) (o_a_star o) t) as (_ & _ & ->).
  f_equal. rewrite <- a_diff. ring.
Qed.

(** C13 *)
Lemma rel_norm t : norm (get_relative_position k o W t None false) = o_a o * Dof o t.
Proof.
  rewrite rel_pos, (lin_norm k kok x o Hinit Hph). cbn [plxf].
  rewrite Rmult_1_r, Rabs_Ropp, Rabs_pos_eq; auto. generalize (ph_a _ Hph); lra.
Qed.
Lemma rel_norm_E t E : E - ecc_of o * sin E = o_n o * (t - o_tper o) ->
  norm (get_relative_position k o W t None false) = o_a o * (1 - ecc_of o * cos E).
Proof.
  intros H. rewrite rel_norm. unfold Dof, Eof, eo.
  rewrite (ecc_anom_unique (Mof o t) (ecc_of o) E); auto.
  - apply (eo_abs o Hph). - unfold Mof. rewrite H. ring.
Qed.
Lemma rel_norm_bounds t :
  o_a o * (1 - ecc_of o) <= norm (get_relative_position k o W t None false) <= o_a o * (1 + ecc_of o).
Proof.
  rewrite rel_norm. unfold Dof. fold (eo o). generalize (eo_bound o Hph) (COS_bound (Eof o t)) (ph_a _ Hph).
  intros. split; apply Rmult_le_compat_l; try lra; nra.
Qed.
Lemma rel_norm_peri : norm (get_relative_position k o W (o_tper o) None false) = o_a o * (1 - ecc_of o).
Proof.
  rewrite (rel_norm_E _ 0). rewrite cos_0; ring. rewrite sin_0. ring.
Qed.
Lemma rel_norm_apo : norm (get_relative_position k o W (o_tper o + o_period o / 2) None false)
  = o_a o * (1 + ecc_of o).
Proof.
  rewrite (rel_norm_E _ PI). rewrite cos_PI; ring.
  rewrite sin_PI, (of_n _ _ _ F). field. generalize (ph_period _ Hph); lra.
Qed.

Lemma Eof_tper : Eof o (o_tper o) = 0.
Proof.
  unfold Eof, Mof. replace ((o_tper o - o_tper o) * o_n o) with 0 by ring.
  apply ecc_anom_zero, (eo_abs o Hph).
Qed.

(** focus-conic equation: r (1 + e cos f) = a (1 - e^2), where cos f is the
    cosine of the angle between the position and the periastron direction *)
Lemma rel_conic t :
  let p := get_relative_position k o W t None false in
  let p0 := get_relative_position k o W (o_tper o) None false in
  norm p * (1 + ecc_of o * (dot p p0 / (norm p * norm p0))) = o_a o * (1 - ecc_of o * ecc_of o).
Proof.
  intros p p0.
  assert (Hp : dot p p0 = o_a o * o_a o * (1 - ecc_of o) * (cos (Eof o t) - ecc_of o)).
  { unfold p, p0. rewrite !rel_pos. unfold lin. rewrite lincomb_dot.
    rewrite (PP k kok x o Hinit Hph), (PQ k kok x o Hinit Hph), (QQ k kok x o Hinit Hph).
    unfold px, py. rewrite Eof_tper. cbn [plxf]. rewrite cos_0, sin_0. fold (eo o). ring. }
  assert (Hn : norm p = o_a o * Dof o t) by apply rel_norm.
  assert (Hn0 : norm p0 = o_a o * (1 - ecc_of o)) by apply rel_norm_peri.
  rewrite Hp, Hn, Hn0. unfold Dof. fold (eo o).
  assert (H := Dof_pos o Hph t). unfold Dof in H. assert (He := eo_bound o Hph).
  assert (Ha := ph_a _ Hph). field. repeat split; lra.
Qed.

(** C14, C15 *)
Lemma vderive_ext f g t d : (forall u, f u = g u) -> vderive f t d -> vderive g t d.
Proof.
  intros E (H1 & H2 & H3). split; [|split];
    [apply is_derive_ext with (2 := H1)|apply is_derive_ext with (2 := H2)
    |apply is_derive_ext with (2 := H3)]; intros u; rewrite E; reflexivity.
Qed.

Lemma vel_is_derivative t :
  vderive (fun u => get_planet_position k o W u None false) t (get_planet_velocity o W t) /\
  vderive (fun u => get_star_position k o W u None false) t (get_star_velocity o W t) /\
  vderive (fun u => get_relative_position k o W u None false) t (get_relative_velocity o W t).
Proof.
  rewrite planet_vel, star_vel, rel_vel.
  split; [|split].
  - apply vderive_ext with (f := lin o (o_a_planet o)).
    + intros u. rewrite planet_pos. cbn [plxf]. rewrite Rmult_1_r. reflexivity.
    + apply (lin_vderive o Hph).
  - apply vderive_ext with (f := lin o (o_a_star o)).
    + intros u. rewrite star_pos. cbn [plxf]. rewrite Rmult_1_r. reflexivity.
    + apply (lin_vderive o Hph).
  - apply vderive_ext with (f := lin o (- o_a o)).
    + intros u. rewrite rel_pos. cbn [plxf]. rewrite Rmult_1_r. reflexivity.
    + apply (lin_vderive o Hph).
Qed.

Lemma acc_is_derivative t :
  (0 < o_m_star o -> vderive (get_planet_velocity o W) t (get_planet_acceleration o W t)) /\
  (0 < o_m_planet o -> vderive (get_star_velocity o W) t (get_star_acceleration o W t)) /\
  vderive (get_relative_velocity o W) t (get_relative_acceleration o W t).
Proof.
  split; [|split]; intros.
  - rewrite planet_acc by auto. apply vderive_ext with (f := vlin o (o_a_planet o)).
    + intros; rewrite planet_vel; auto. + apply (vlin_vderive o Hph).
  - rewrite star_acc by auto. apply vderive_ext with (f := vlin o (o_a_star o)).
    + intros; rewrite star_vel; auto. + apply (vlin_vderive o Hph).
  - rewrite rel_acc by auto. apply vderive_ext with (f := vlin o (- o_a o)).
    + intros; rewrite rel_vel; auto. + apply (vlin_vderive o Hph).
Qed.

Lemma n2a3 : o_n o * o_n o * (o_a o * o_a o * o_a o) = G_grav k * o_m_total o.
Proof.
  rewrite (of_n _ _ _ F). generalize (of_kepler3 _ _ _ F). intros H.
  assert (Hp := ph_period _ Hph).
  transitivity (4 * (PI * PI) * (o_a o * o_a o * o_a o) / (o_period o * o_period o)); [field; lra|].
  rewrite <- H. field. lra.
Qed.

Lemma newton t :
  let p := get_relative_position k o W t None false in
  get_relative_acceleration o W t =
  vscale (- (G_grav k * o_m_total o) / (norm p * norm p * norm p)) p.
Proof.
  intros p. unfold p. rewrite rel_norm, rel_acc, rel_pos, <- n2a3. cbn [plxf].
  assert (HD := Dof_pos o Hph t). assert (Ha := ph_a _ Hph).
  unfold alin, lin. vcrush. apply vec_eq; field; lra.
Qed.

(** C16 *)
Lemma vis_viva t :
  let p := get_relative_position k o W t None false in
  let v := get_relative_velocity o W t in
  dot v v / 2 - G_grav k * o_m_total o / norm p = - (G_grav k * o_m_total o) / (2 * o_a o).
Proof.
  intros p v. unfold p, v. rewrite rel_norm, rel_vel, <- n2a3.
  assert (HD := Dof_pos o Hph t). assert (Ha := ph_a _ Hph). assert (He := eo_bound o Hph).
  unfold vlin. rewrite lincomb_dot.
  rewrite (PP k kok x o Hinit Hph), (PQ k kok x o Hinit Hph), (QQ k kok x o Hinit Hph).
  assert (Hs := sin2_cos2' (Eof o t)). assert (Hq := qo_sqr o Hph).
  set (c := cos (Eof o t)) in *. set (s := sin (Eof o t)) in *. set (n := o_n o). set (a := o_a o) in *.
  assert (HDc : Dof o t = 1 - eo o * c) by reflexivity. set (D := Dof o t) in *.
  transitivity (n * n * (a * a) * (s * s + qo o * qo o * (c * c)) / (D * D) / 2 - n * n * (a * a * a) / (a * D)).
  { field. split; lra. }
  rewrite Hq. replace (s * s) with (1 - c * c) by lra.
  replace (1 - c * c + (1 - eo o * eo o) * (c * c)) with ((1 - eo o * c) * (1 + eo o * c)) by ring.
  rewrite HDc in *. field. split; lra.
Qed.

Lemma ang_mom t :
  cross (get_relative_position k o W t None false) (get_relative_velocity o W t)
  = vscale (sqrt (G_grav k * o_m_total o * o_a o * (1 - ecc_of o * ecc_of o)))
      (- sinO o * o_sin_incl o, cosO o * o_sin_incl o, o_cos_incl o).
Proof.
  rewrite rel_vel, rel_pos. cbn [plxf]. unfold lin, vlin. rewrite lincomb_cross.
  rewrite (PxQ k kok x o Hinit Hph). f_equal.
  assert (HD := Dof_pos o Hph t). assert (Ha := ph_a _ Hph). assert (Hn := n_pos k kok x o Hinit Hph).
  assert (Hq := qo_pos o Hph).
  rewrite <- n2a3. fold (eo o).
  replace (o_n o * o_n o * (o_a o * o_a o * o_a o) * o_a o * (1 - eo o * eo o))
    with ((o_n o * (o_a o * o_a o)) * (o_n o * (o_a o * o_a o)) * (1 - eo o * eo o)) by ring.
  rewrite sqrt_mult_alt by nra. rewrite sqrt_square by nra. fold (qo o).
  unfold px, py, Dof in *. assert (Hs := sin2_cos2' (Eof o t)).
  set (c := cos (Eof o t)) in *. set (s := sin (Eof o t)) in *.
  transitivity (o_n o * (o_a o * o_a o) * qo o * ((c - eo o) * c + s * s) / (1 - eo o * c)); [field; lra|].
  replace ((c - eo o) * c + s * s) with (1 - eo o * c) by lra. field. lra.
Qed.
End S.
