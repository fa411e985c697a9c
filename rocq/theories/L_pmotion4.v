(** * Light-travel time, per body *)
From Coq Require Import Reals Lra Lia ZArith Bool List.
From Coquelicot Require Import Coquelicot.
From Verif Require Import Num CoreOps Inst M_units M_kepler L_real L_kepop Spec_orbit L_orbit L_motion L_pmotion L_pmotion2.
Open Scope R_scope.

Section S.
Variable k : consts.
Hypothesis kok : consts_ok k.
Variables (x : kargs R) (o : orbit R).
Hypothesis Hinit : kep_init k x = Ok o.
Hypothesis Hph : physical o.

Definition a_of (b : body) : R :=
  match b with Planet => o_a_planet o | Star => o_a_star o | Relative => - o_a o end.

Lemma a_of_nz b : moving o b -> a_of b <> 0.
Proof.
  assert (F := kep_init_facts k kok x o Hinit Hph). assert (Ha := ph_a _ Hph). assert (Hm := ph_m_total _ Hph).
  destruct b; cbn; intros H.
  - rewrite (of_a_planet _ _ _ F), (of_mtot _ _ _ F). unfold Rdiv. apply Rmult_integral_contrapositive_currified.
    nra. apply Rinv_neq_0_compat. lra.
  - rewrite (of_a_star _ _ _ F), (of_mtot _ _ _ F). unfold Rdiv. apply Rmult_integral_contrapositive_currified.
    nra. apply Rinv_neq_0_compat. lra.
  - lra.
Qed.
Lemma a_of_bound b : Rabs (a_of b) <= o_a o.
Proof.
  assert (F := kep_init_facts k kok x o Hinit Hph). assert (Ha := ph_a _ Hph). assert (Hm := ph_m_total _ Hph).
  assert (H1 := ph_m_star _ Hph). assert (H2 := ph_m_planet _ Hph).
  destruct b; cbn.
  - rewrite (of_a_planet _ _ _ F), (of_mtot _ _ _ F).
    replace (- o_a o * o_m_star o / (o_m_star o + o_m_planet o)) with (- (o_a o * (o_m_star o / (o_m_star o + o_m_planet o)))) by (field; lra).
    rewrite Rabs_Ropp, Rabs_pos_eq.
    + assert (o_m_star o / (o_m_star o + o_m_planet o) <= 1). { apply Rmult_le_reg_r with (o_m_star o + o_m_planet o); auto. unfold Rdiv. rewrite Rmult_assoc, Rinv_l; lra. } nra.
    + apply Rmult_le_pos; [lra|]. apply Rmult_le_pos; auto. left. apply Rinv_0_lt_compat. lra.
  - rewrite (of_a_star _ _ _ F), (of_mtot _ _ _ F).
    replace (o_a o * o_m_planet o / (o_m_star o + o_m_planet o)) with (o_a o * (o_m_planet o / (o_m_star o + o_m_planet o))) by (field; lra).
    rewrite Rabs_pos_eq.
    + assert (o_m_planet o / (o_m_star o + o_m_planet o) <= 1). { apply Rmult_le_reg_r with (o_m_star o + o_m_planet o); auto. unfold Rdiv. rewrite Rmult_assoc, Rinv_l; lra. } nra.
    + apply Rmult_le_pos; [lra|]. apply Rmult_le_pos; auto. left. apply Rinv_0_lt_compat. lra.
  - rewrite Rabs_Ropp, Rabs_pos_eq; lra.
Qed.

Lemma pos_lin b t : pos k o b t None false = lin o (a_of b) t.
Proof.
  destruct b; cbn [pos a_of]; [rewrite (planet_pos k kok x o Hinit Hph)|rewrite (star_pos k kok x o Hinit Hph)|rewrite (rel_pos k kok x o Hinit Hph)];
    cbn [plxf]; rewrite Rmult_1_r; reflexivity.
Qed.
Lemma vel_lin b t : vel o b t = vlin o (a_of b) t.
Proof. destruct b; cbn [vel a_of]; [eapply planet_vel|eapply star_vel|eapply rel_vel]; eauto. Qed.
Lemma acc_lin b t : moving o b -> acc o b t = alin o (a_of b) t.
Proof. destruct b; cbn [moving acc a_of]; intros; [eapply planet_acc|eapply star_acc|eapply rel_acc]; eauto. Qed.
Lemma pos_delay b t par : moving o b -> pos k o b t par true = lin o (a_of b) (t - delay k o (a_of b) t).
Proof.
  intros Hm. assert (Hnz := a_of_nz b Hm). destruct b; cbn [pos a_of] in *;
  [unfold get_planet_position|unfold get_star_position|unfold get_relative_position];
  rewrite sqz3_id; apply (delayed_position k kok x o Hinit Hph); auto.
Qed.

Lemma light_delay_body b t par : moving o b ->
  let z u := vz (pos k o b u None false) in
  let v := vz (vel o b t) in
  let a := vz (acc o b t) in
  v < c_light k ->
  2 * a * (0 - z t) <= (c_light k - v) * (c_light k - v) ->
  exists d,
    pos k o b t par true = pos k o b (t - d) None false /\
    (Rabs a < 1 / 10000000000 -> c_light k * d = - (z t - v * d)) /\
    (1 / 10000000000 <= Rabs a -> c_light k * d = - (z t - v * d - a / 2 * (d * d))) /\
    Rabs (c_light k * d - - z (t - d))
      <= o_a o * (o_n o * o_n o) / ((1 - ecc_of o) * (1 - ecc_of o)) * (d * d).
Proof.
  intros Hm z v a Hv Hdisc. exists (delay k o (a_of b) t).
  assert (Ez : forall u, z u = zof o (a_of b) u) by (intros; unfold z; rewrite pos_lin; reflexivity).
  assert (Ev : v = zdot o (a_of b) t) by (unfold v; rewrite vel_lin; reflexivity).
  assert (Ea : a = zddot o (a_of b) t) by (unfold a; rewrite acc_lin by auto; reflexivity).
  rewrite !Ez, ?Ev, ?Ea in *. 
  split; [rewrite pos_lin; apply pos_delay; auto|]. split; [|split].
  - intros H. assert (E := delayed_linear k o (a_of b) t H Hv). lra.
  - intros H. assert (E := delayed_quadratic k kok o (a_of b) t H Hdisc). cbn zeta in E. lra.
  - assert (E := delayed_first_order k kok x o Hinit Hph (a_of b) t Hv Hdisc). cbn zeta in E.
    replace (c_light k * delay k o (a_of b) t - - zof o (a_of b) (t - delay k o (a_of b) t))
      with (c_light k * delay k o (a_of b) t - (0 - zof o (a_of b) (t - delay k o (a_of b) t))) by ring.
    eapply Rle_trans. apply E. unfold Rdiv. apply Rmult_le_compat_r. generalize (Rle_0_sqr (delay k o (a_of b) t)); unfold Rsqr; auto.
    assert (He := eo_bound o Hph). unfold eo in He. apply Rmult_le_compat_r.
    left. apply Rinv_0_lt_compat. nra.
    apply Rmult_le_compat_r. generalize (Rle_0_sqr (o_n o)); unfold Rsqr; auto. apply a_of_bound.
Qed.
End S.
