(** * Convergent parameters give convergent motion *)
From Coq Require Import Reals Lra Lia Bool.
From Coquelicot Require Import Coquelicot.
From Verif Require Import Num CoreOps Inst M_units M_kepler Spec_orbit Spec_params Spec_cont L_real L_kepop L_orbit L_motion L_pmotion L_pmotion2 L_pmotion4 L_params3 L_cont L_cont2.
Open Scope R_scope.

Lemma Un_cv_squeeze u l (d : nat -> R) : (forall n, Rabs (u n - l) <= d n) -> Un_cv d 0 -> Un_cv u l.
Proof.
  intros H C e He. destruct (C e He) as [N HN]. exists N. intros n Hn. specialize (HN n Hn). unfold R_dist in *. rewrite Rminus_0_r in HN.
  eapply Rle_lt_trans; [apply H|]. eapply Rle_lt_trans; [apply Rle_abs|exact HN].
Qed.
Lemma cv_abs u l : Un_cv u l -> Un_cv (fun n => Rabs (u n)) (Rabs l).
Proof. apply cv_app. apply Rcontinuity_abs. Qed.
Lemma cv_zero u l : Un_cv u l -> Un_cv (fun n => Rabs (u n - l)) 0.
Proof. intro H. replace 0 with (Rabs (l - l)) by (rewrite Rminus_diag_eq, Rabs_R0; reflexivity). apply cv_abs. cv. Qed.

Lemma ecc_anom_tends Ms M es e : Rabs e < 1 -> (forall n, Rabs (es n) < 1) -> Un_cv Ms M -> Un_cv es e -> Un_cv (fun n => ecc_anom (Ms n) (es n)) (ecc_anom M e).
Proof.
  intros He Hes CM Ce.
  apply Un_cv_squeeze with (d := fun n => (Rabs (Ms n - M) + Rabs (es n - e)) / (1 - Rabs e)).
  - intro n. set (E' := ecc_anom (Ms n) (es n)). set (E := ecc_anom M e).
    assert (K := kepler_expand e E' E He).
    assert (S1 := ecc_anom_spec (Ms n) (es n) (Hes n)). assert (S2 := ecc_anom_spec M e He). fold E' in S1. fold E in S2.
    replace (E' - e * sin E' - (E - e * sin E)) with ((Ms n - M) + (es n - e) * sin E') in K by (rewrite <- S1 at 1; rewrite <- S2 at 1; ring).
    assert (T := Rabs_triang (Ms n - M) ((es n - e) * sin E')). rewrite Rabs_mult in T.
    assert (Q : Rabs (sin E') <= 1) by (apply Rabs_le; generalize (SIN_bound E'); lra).
    apply Rmult_le_reg_l with (1 - Rabs e); [lra|]. eapply Rle_trans; [exact K|]. eapply Rle_trans; [exact T|].
    replace ((1 - Rabs e) * ((Rabs (Ms n - M) + Rabs (es n - e)) / (1 - Rabs e))) with (Rabs (Ms n - M) + Rabs (es n - e)) by (field; lra).
    generalize (Rabs_pos (es n - e)). nra.
  - replace 0 with ((0 + 0) / (1 - Rabs e)) by (unfold Rdiv; ring). apply cv_div; [lra| |apply cv_const]. apply CV_plus; apply cv_zero; assumption.
Qed.

Section S.
Variable k : consts.
Hypothesis kok : consts_ok k.
Variable xs : nat -> kargs R.
Variable x : kargs R.
Variable os : nat -> orbit R.
Variable o : orbit R.
Hypothesis AT : args_tend xs x.
Hypothesis Hi : forall n, kep_init k (xs n) = Ok (os n).
Hypothesis Hp : forall n, physical (os n).
Hypothesis Ho : kep_init k x = Ok o.
Hypothesis Hph : physical o.
Hypothesis NE : duration_fits k x o.
Hypothesis HS : ka_tper x <> None \/ sinw_of o <> -1.

Lemma facts : attributes_tend os o /\ Un_cv (fun n => o_n (os n)) (o_n o) /\ Omega_tends (fun n => o_Omega (os n)) (o_Omega o) /\ (sinw_of o <> -1 -> Un_cv (fun n => o_t0 (os n)) (o_t0 o)).
Proof.
  destruct (init_tends k kok xs x AT o Ho Hph NE HS) as (os' & E & A & B & C & D).
  assert (Eq : forall n, os' n = os n). { intro n. specialize (E n). rewrite Hi in E. apply Ok_inj in E. symmetry. exact E. }
  assert (X : forall f : orbit R -> R, Un_cv (fun n => f (os' n)) (f o) -> Un_cv (fun n => f (os n)) (f o)). { intros f H. eapply cv_ext; [|exact H]. intro n. cbv beta. rewrite Eq. reflexivity. }
  split; [|split; [|split]].
  - destruct A. constructor; match goal with |- Un_cv (fun n => ?f (os n)) _ => apply (X f); assumption end.
  - apply (X _ B).
  - unfold Omega_tends in *. destruct (o_Omega o). { destruct C as (ds & Ed & C). exists ds. split; [|exact C]. intro n. rewrite <- Eq. apply Ed. } intro n. rewrite <- Eq. apply C.
  - intro Z. apply (X _ (D Z)).
Qed.
Lemma AA : attributes_tend os o. Proof. exact (proj1 facts). Qed.

Lemma O_tends : Un_cv (fun n => cosO (os n)) (cosO o) /\ Un_cv (fun n => sinO (os n)) (sinO o).
Proof.
  destruct facts as (_ & _ & W & _). unfold cosO, sinO. unfold Omega_tends in W. destruct (o_Omega o).
  - destruct W as (ds & Ed & C1 & C2). split; eapply cv_ext; try eassumption; intro n; cbv beta; rewrite Ed; reflexivity.
  - split; eapply cv_ext; try apply cv_const; intro n; cbv beta; rewrite W; reflexivity.
Qed.
Lemma P_tends : vec_tends (fun n => Pv (os n)) (Pv o).
Proof. destruct O_tends as [C1 C2]. destruct AA. unfold vec_tends, Pv, vx, vy, vz. cbn [fst snd]. split; [|split]; cv. Qed.
Lemma Q_tends : vec_tends (fun n => Qv (os n)) (Qv o).
Proof. destruct O_tends as [C1 C2]. destruct AA. unfold vec_tends, Qv, vx, vy, vz. cbn [fst snd]. split; [|split]; cv. Qed.

Lemma e_tends : Un_cv (fun n => eo (os n)) (eo o).
Proof. apply (tn_ecc _ _ AA). Qed.
Lemma q_tends : Un_cv (fun n => qo (os n)) (qo o).
Proof. assert (C := e_tends). unfold qo. cv. Qed.

Variable ts : nat -> R.
Variable t : R.
Hypothesis Ct : Un_cv ts t.

Lemma E_tends : Un_cv (fun n => Eof (os n) (ts n)) (Eof o t).
Proof.
  unfold Eof. apply ecc_anom_tends.
  - apply (eo_abs o Hph).
  - intro n. apply (eo_abs _ (Hp n)).
  - destruct facts as (A & Cn & _). assert (C := tn_tper _ _ A). unfold Mof. cv.
  - apply e_tends.
Qed.
Lemma D_tends : Un_cv (fun n => Dof (os n) (ts n)) (Dof o t).
Proof. assert (C := e_tends). assert (D := E_tends). unfold Dof. cv. Qed.

Lemma comb_tends xs' x' ys y Ps P Qs Q : Un_cv xs' x' -> Un_cv ys y -> vec_tends Ps P -> vec_tends Qs Q ->
  vec_tends (fun n => vadd (vscale (xs' n) (Ps n)) (vscale (ys n) (Qs n))) (vadd (vscale x' P) (vscale y Q)).
Proof. intros Cx Cy (P1 & P2 & P3) (Q1 & Q2 & Q3). unfold vec_tends, vadd, vscale, vx, vy, vz in *. cbn [fst snd]. split; [|split]; cv. Qed.
Lemma lin_tends cs c : Un_cv cs c -> vec_tends (fun n => lin (os n) (cs n) (ts n)) (lin o c t).
Proof.
  intro C. assert (C1 := e_tends). assert (C2 := E_tends). assert (C3 := q_tends).
  apply (comb_tends (fun n => cs n * px (os n) (ts n)) _ (fun n => cs n * py (os n) (ts n))); [unfold px; cv|unfold py; cv|apply P_tends|apply Q_tends].
Qed.
Lemma vlin_tends cs c : Un_cv cs c -> vec_tends (fun n => vlin (os n) (cs n) (ts n)) (vlin o c t).
Proof.
  intro C. assert (C1 := e_tends). assert (C2 := E_tends). assert (C3 := q_tends). assert (C4 := D_tends). destruct facts as (_ & Cn & _). assert (HD := Dof_pos o Hph t).
  apply (comb_tends (fun n => cs n * o_n (os n) * - sin (Eof (os n) (ts n)) / Dof (os n) (ts n)) _ (fun n => cs n * o_n (os n) * (qo (os n) * cos (Eof (os n) (ts n))) / Dof (os n) (ts n))); [cv; lra|cv; lra|apply P_tends|apply Q_tends].
Qed.
Lemma alin_tends cs c : Un_cv cs c -> vec_tends (fun n => alin (os n) (cs n) (ts n)) (alin o c t).
Proof.
  intro C. assert (C1 := e_tends). assert (C2 := E_tends). assert (C3 := q_tends). assert (C4 := D_tends). destruct facts as (_ & Cn & _). assert (HD := Dof_pos o Hph t).
  assert (H3 : Dof o t * Dof o t * Dof o t <> 0) by (apply Rgt_not_eq; repeat apply Rmult_lt_0_compat; exact HD).
  apply (comb_tends (fun n => - cs n * (o_n (os n) * o_n (os n)) * px (os n) (ts n) / (Dof (os n) (ts n) * Dof (os n) (ts n) * Dof (os n) (ts n))) _ (fun n => - cs n * (o_n (os n) * o_n (os n)) * py (os n) (ts n) / (Dof (os n) (ts n) * Dof (os n) (ts n) * Dof (os n) (ts n))));
    [unfold px; cv; exact H3|unfold py; cv; exact H3|apply P_tends|apply Q_tends].
Qed.

Lemma vec_ext us vs l : (forall n, us n = vs n) -> vec_tends us l -> vec_tends vs l.
Proof. intros H (A & B & C). split; [|split]; eapply cv_ext; try eassumption; intro n; cbv beta; rewrite H; reflexivity. Qed.
Lemma vec_late us vs l N : (forall n, (N <= n)%nat -> us n = vs n) -> vec_tends us l -> vec_tends vs l.
Proof. intros H (A & B & C). split; [|split]; eapply cv_late with (N := N); try eassumption; intros n Hn; cbv beta; rewrite H by exact Hn; reflexivity. Qed.

Lemma a_tends b : Un_cv (fun n => a_of (os n) b) (a_of o b).
Proof. destruct AA. destruct b; cbn [a_of]; cv. Qed.
Lemma plx_tends pars par : given_tends Un_cv pars par -> Un_cv (fun n => plxf k (pars n)) (plxf k par).
Proof.
  intro G. destruct par as [p|].
  - destruct G as (ps & E & C). apply cv_ext with (u := fun n => plxf k (Some (ps n))). { intro n. rewrite E. reflexivity. } cbn [plxf]. cv.
  - cbn in G. apply cv_ext with (u := fun n => plxf k None). { intro n. rewrite G. reflexivity. } apply cv_const.
Qed.
Lemma pos_par o' x' : kep_init k x' = Ok o' -> physical o' -> forall b t par, pos k o' b t par false = lin o' (a_of o' b * plxf k par) t.
Proof.
  intros H1 H2 b t1 par. destruct b; cbn [pos a_of]; [rewrite (planet_pos k kok x' o' H1 H2)|rewrite (star_pos k kok x' o' H1 H2)|rewrite (rel_pos k kok x' o' H1 H2)]; reflexivity.
Qed.
Lemma pos_tends b pars par : given_tends Un_cv pars par -> vec_tends (fun n => pos k (os n) b (ts n) (pars n) false) (pos k o b t par false).
Proof.
  intro G. rewrite (pos_par o x Ho Hph). eapply vec_ext. { intro n. symmetry. apply (pos_par (os n) (xs n) (Hi n) (Hp n)). }
  apply (lin_tends (fun n => a_of (os n) b * plxf k (pars n))). apply CV_mult; [apply a_tends|apply plx_tends; exact G].
Qed.
Lemma vel_tends b : vec_tends (fun n => vel (os n) b (ts n)) (vel o b t).
Proof.
  rewrite (vel_lin k kok x o Ho Hph). eapply vec_ext. { intro n. symmetry. apply (vel_lin k kok (xs n) (os n) (Hi n) (Hp n)). }
  apply vlin_tends, a_tends.
Qed.
Lemma acc_tends b : moving o b -> vec_tends (fun n => acc (os n) b (ts n)) (acc o b t).
Proof.
  intro Hm. rewrite (acc_lin k kok x o Ho Hph) by exact Hm.
  assert (L : exists N, forall n, (N <= n)%nat -> moving (os n) b).
  { destruct b; cbn in *; [apply (cv_pos _ _ Hm (tn_m_star _ _ AA))|apply (cv_pos _ _ Hm (tn_m_planet _ _ AA))|exists O; auto]. }
  destruct L as [N L]. apply vec_late with (us := fun n => alin (os n) (a_of (os n) b) (ts n)) (N := N).
  { intros n Hn. symmetry. apply (acc_lin k kok (xs n) (os n) (Hi n) (Hp n)). auto. }
  apply alin_tends, a_tends.
Qed.

Lemma rv_tends Ks K u v : given_tends Un_cv Ks K -> get_radial_velocity k o (kep_warp o) t K u = Ok v ->
  exists vs, (forall n, get_radial_velocity k (os n) (kep_warp (os n)) (ts n) (Ks n) u = Ok (vs n)) /\ Un_cv vs v.
Proof.
  intros G H. unfold get_radial_velocity in *. destruct K as [K|].
  - destruct G as (q & E & C). rewrite (true_anomaly_form k kok x o Ho Hph) in H. apply Ok_inj in H.
    assert (F : forall o' s c f, match o_ecc o' with None => nsqz (nmul K c) | Some d => nsqz (nmul K (nadd (nsub (nmul (e_cosw d) c) (nmul (e_sinw d) s)) (nmul (e_ecc d) (e_cosw d)))) end = K * (cosw_of o' * c - sinw_of o' * s + ecc_of o' * cosw_of o') + f - f).
    { intros. unfold cosw_of, sinw_of, ecc_of. destruct (o_ecc o'); simR; ring. }
    assert (F' : forall o' K s c, match o_ecc o' with None => nsqz (nmul K c) | Some d => nsqz (nmul K (nadd (nsub (nmul (e_cosw d) c) (nmul (e_sinw d) s)) (nmul (e_ecc d) (e_cosw d)))) end = K * (cosw_of o' * c - sinw_of o' * s + ecc_of o' * cosw_of o')).
    { intros. unfold cosw_of, sinw_of, ecc_of. destruct (o_ecc o'); simR; ring. }
    clear F. rewrite F' in H. subst v. eexists. split.
    { intro n. rewrite E, (true_anomaly_form k kok (xs n) (os n) (Hi n) (Hp n)). rewrite F'. reflexivity. }
    rewrite cosf_form, sinf_form. assert (C1 := e_tends). assert (C2 := E_tends). assert (C3 := q_tends). assert (C4 := D_tends). assert (HD := Dof_pos o Hph t).
    destruct AA as [? ? ? ? ? ? ? ? ? C5 C6 C7 ? ? ? ? ?].
    apply cv_ext with (u := fun n => q n * (cosw_of (os n) * ((cos (Eof (os n) (ts n)) - eo (os n)) / Dof (os n) (ts n)) - sinw_of (os n) * (qo (os n) * sin (Eof (os n) (ts n)) / Dof (os n) (ts n)) + ecc_of (os n) * cosw_of (os n))). { reflexivity. }
    cv; lra.
  - inv_bind H. cbn in G. assert (V := vel_tends Star). cbn [vel] in V. destruct V as (_ & _ & V).
    destruct (get_star_velocity o (kep_warp o) t) as [[? ?] z] eqn:Z. apply Ok_inj in H. subst v. unfold vz in V. cbn [snd] in V.
    exists (fun n => - v0 * snd (get_star_velocity (os n) (kep_warp (os n)) (ts n))). split.
    + intro n. rewrite G. cbn [rbind]. destruct (get_star_velocity (os n) (kep_warp (os n)) (ts n)) as [[? ?] ?]. reflexivity.
    + simR. cv.
Qed.
End S.
