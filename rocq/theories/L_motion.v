(** * Closed form of the motion at R *)
From Coq Require Import Reals Lra Lia ZArith Bool List.
From Coquelicot Require Import Coquelicot.
From Verif Require Import Num CoreOps Inst M_units M_kepler L_real L_kepop Spec_orbit L_orbit.
Open Scope R_scope.

Definition cosO (o : orbit R) := match o_Omega o with None => 1 | Some w => O_cos w end.
Definition sinO (o : orbit R) := match o_Omega o with None => 0 | Some w => O_sin w end.
Definition Pv (o : orbit R) : R * R * R :=
  (cosO o * cosw_of o - sinO o * (o_cos_incl o * sinw_of o),
   sinO o * cosw_of o + cosO o * (o_cos_incl o * sinw_of o),
   - o_sin_incl o * sinw_of o).
Definition Qv (o : orbit R) : R * R * R :=
  (- cosO o * sinw_of o - sinO o * (o_cos_incl o * cosw_of o),
   - sinO o * sinw_of o + cosO o * (o_cos_incl o * cosw_of o),
   - o_sin_incl o * cosw_of o).

Ltac toR := match goal with |- ?a = ?b => change (@eq R a b) end.
Ltac vcrush := unfold vadd, vsub, vscale, dot, cross, vx, vy, vz in *; cbn [fst snd] in *.

Lemma vec_eq (a b c a' b' c' : R) : a = a' -> b = b' -> c = c' -> (a, b, c) = (a', b', c').
Proof. intros; subst; reflexivity. Qed.

Lemma rotate_PQ (o : orbit R) x y :
  rotate_vector o x y = vadd (vscale x (Pv o)) (vscale y (Qv o)).
Proof.
  unfold rotate_vector, Pv, Qv, cosO, sinO, cosw_of, sinw_of. vcrush.
  destruct (o_ecc o) as [d|], (o_Omega o) as [w|]; simR; apply vec_eq; ring.
Qed.

Lemma lincomb_dot P Q x y x' y' :
  dot (vadd (vscale x P) (vscale y Q)) (vadd (vscale x' P) (vscale y' Q))
  = x * x' * dot P P + (x * y' + y * x') * dot P Q + y * y' * dot Q Q.
Proof. vcrush. ring. Qed.
Lemma lincomb_cross P Q x y x' y' :
  cross (vadd (vscale x P) (vscale y Q)) (vadd (vscale x' P) (vscale y' Q))
  = vscale (x * y' - y * x') (cross P Q).
Proof. vcrush. apply vec_eq; ring. Qed.

Section S.
Variable k : consts.
Hypothesis kok : consts_ok k.
Variable x : kargs R.
Variable o : orbit R.
Hypothesis Hinit : kep_init k x = Ok o.
Hypothesis Hph : physical o.

Let F := kep_init_facts k kok x o Hinit Hph.
Definition eo := ecc_of o.
Definition qo := sqrt (1 - eo * eo).

Lemma eo_bound : 0 <= eo < 1.
Proof.
  unfold eo, ecc_of. destruct (o_ecc o) eqn:E; [|lra]. apply (ph_ecc _ Hph); auto.
Qed.
Lemma eo_abs : Rabs eo < 1.
Proof. generalize eo_bound. intros. rewrite Rabs_pos_eq; lra. Qed.
Lemma qo_pos : 0 < qo.
Proof. apply sqrt_lt_R0. generalize eo_bound. nra. Qed.
Lemma qo_sqr : qo * qo = 1 - eo * eo.
Proof. apply sqr_sqrt. generalize eo_bound. nra. Qed.
Lemma w_unit : cosw_of o * cosw_of o + sinw_of o * sinw_of o = 1.
Proof.
  unfold cosw_of, sinw_of. destruct (o_ecc o) eqn:E; [|ring]. apply (ph_omega _ Hph); auto.
Qed.
Lemma i_unit : o_cos_incl o * o_cos_incl o + o_sin_incl o * o_sin_incl o = 1.
Proof.
  rewrite (of_cosi _ _ _ F), (of_sini _ _ _ F). generalize (sin2_cos2' (o_incl o)). lra.
Qed.
Lemma O_unit : cosO o * cosO o + sinO o * sinO o = 1.
Proof.
  unfold cosO, sinO. destruct (o_Omega o) eqn:E; [|ring].
  destruct (of_Omega _ _ _ F _ E) as [-> ->]. generalize (sin2_cos2' (O_Omega o0)). lra.
Qed.

Lemma PP : dot (Pv o) (Pv o) = 1.
Proof.
  unfold Pv. vcrush. generalize w_unit i_unit O_unit.
  set (a := cosO o). set (b := sinO o). set (c := cosw_of o). set (s := sinw_of o).
  set (ci := o_cos_incl o). set (si := o_sin_incl o). intros Hw Hi HO.
  transitivity ((a*a+b*b) * (c*c + ci*ci*(s*s)) + si*si*(s*s)); [ring|].
  rewrite HO. transitivity (c*c + (ci*ci + si*si)*(s*s)); [ring|]. rewrite Hi. lra.
Qed.
Lemma QQ : dot (Qv o) (Qv o) = 1.
Proof.
  unfold Qv. vcrush. generalize w_unit i_unit O_unit.
  set (a := cosO o). set (b := sinO o). set (c := cosw_of o). set (s := sinw_of o).
  set (ci := o_cos_incl o). set (si := o_sin_incl o). intros Hw Hi HO.
  transitivity ((a*a+b*b) * (s*s + ci*ci*(c*c)) + si*si*(c*c)); [ring|].
  rewrite HO. transitivity (s*s + (ci*ci + si*si)*(c*c)); [ring|]. rewrite Hi. lra.
Qed.
Lemma PQ : dot (Pv o) (Qv o) = 0.
Proof.
  unfold Pv, Qv. vcrush. generalize w_unit i_unit O_unit.
  set (a := cosO o). set (b := sinO o). set (c := cosw_of o). set (s := sinw_of o).
  set (ci := o_cos_incl o). set (si := o_sin_incl o). intros Hw Hi HO.
  transitivity ((a*a+b*b) * (- c*s + ci*ci*(c*s)) + si*si*(c*s)); [ring|].
  rewrite HO. transitivity ((ci*ci+si*si - 1)*(c*s)); [ring|]. rewrite Hi. lra.
Qed.

(** the angular momentum direction *)
Lemma PxQ : cross (Pv o) (Qv o) =
  (- sinO o * o_sin_incl o, cosO o * o_sin_incl o, o_cos_incl o).
Proof.
  unfold Pv, Qv. vcrush. generalize w_unit i_unit O_unit.
  set (a := cosO o). set (b := sinO o). set (c := cosw_of o). set (s := sinw_of o).
  set (ci := o_cos_incl o). set (si := o_sin_incl o). intros Hw Hi HO.
  apply vec_eq.
  - transitivity (- b * si * (c*c + s*s)); [ring|]. rewrite Hw. ring.
  - transitivity (a * si * (c*c + s*s)); [ring|]. rewrite Hw. ring.
  - transitivity (ci * (c*c + s*s) * (a*a+b*b)); [ring|]. rewrite Hw, HO. ring.
Qed.

(** ** anomalies *)
Definition Mof (t : R) : R := (t - o_tper o) * o_n o.
Definition Eof (t : R) : R := ecc_anom (Mof t) eo.
Definition Dof (t : R) : R := 1 - eo * cos (Eof t).

Lemma Dof_pos t : 0 < Dof t.
Proof. apply ecos_pos, eo_abs. Qed.

Lemma true_anomaly_form (pad : bool) t :
  true_anomaly o (kep_warp o) pad t = (kepler_sinf (Mof t) eo, kepler_cosf (Mof t) eo).
Proof.
  unfold true_anomaly, kep_warp.
  assert (E : ((if pad then npadr t - o_t0 o else t - o_t0 o)%num - o_tref o)%num * o_n o = Mof t).
  { unfold Mof. rewrite (of_tref _ _ _ F). destruct pad; simR; ring. }
  unfold eo, ecc_of. destruct (o_ecc o) as [d|].
  - simR. rewrite Rplus_0_r. rewrite E. reflexivity.
  - simR. rewrite kepler_sinf_0, kepler_cosf_0, E. reflexivity.
Qed.

Lemma cosf_form t : kepler_cosf (Mof t) eo = (cos (Eof t) - eo) / Dof t.
Proof. reflexivity. Qed.
Lemma sinf_form t : kepler_sinf (Mof t) eo = qo * sin (Eof t) / Dof t.
Proof. reflexivity. Qed.

(** orbital plane coordinates, per unit semi-major axis *)
Definition px (t : R) : R := cos (Eof t) - eo.
Definition py (t : R) : R := qo * sin (Eof t).

Lemma radius_form a t :
  match o_ecc o with
  | None => a
  | Some d => a * (1 - e_ecc d * e_ecc d) / (1 + e_ecc d * kepler_cosf (Mof t) eo)
  end = a * Dof t.
Proof.
  unfold Dof. destruct (o_ecc o) as [d|] eqn:E.
  - assert (eo = e_ecc d) as <- by (unfold eo, ecc_of; rewrite E; reflexivity).
    unfold Rdiv. rewrite Rmult_assoc. f_equal. apply kepler_radius, eo_abs.
  - assert (eo = 0) as -> by (unfold eo, ecc_of; rewrite E; reflexivity). ring.
Qed.

Definition lin (c : R) (t : R) : R * R * R :=
  vadd (vscale (c * px t) (Pv o)) (vscale (c * py t) (Qv o)).

Lemma position_form a t par (pad : bool) :
  position_nodelay k o (kep_warp o) a t par pad =
  lin (a * match par with None => 1 | Some p => p * au_per_R_sun k end) t.
Proof.
  unfold position_nodelay. rewrite true_anomaly_form. rewrite rotate_PQ.
  generalize (radius_form a t). simR. intros ->.
  assert (HD := Dof_pos t). unfold lin, px, py. rewrite cosf_form, sinf_form.
  f_equal; f_equal; destruct par; simR; field; lra.
Qed.

Lemma K0_form : o_K0 o = o_n o * o_a o / o_m_total o / qo.
Proof. apply (of_K0 _ _ _ F). Qed.

Definition vlin (c : R) (t : R) : R * R * R :=
  vadd (vscale (c * o_n o * (- sin (Eof t)) / Dof t) (Pv o))
       (vscale (c * o_n o * (qo * cos (Eof t)) / Dof t) (Qv o)).

Lemma mtot_pos : 0 < o_m_total o.
Proof. rewrite (of_mtot _ _ _ F). apply (ph_m_total _ Hph). Qed.

Lemma velocity_form m t :
  get_velocity o (kep_warp o) m t = vlin (o_a o * m / o_m_total o) t.
Proof.
  unfold get_velocity. rewrite true_anomaly_form.
  assert (HD := Dof_pos t). assert (Hq := qo_pos). assert (Hq2 := qo_sqr). assert (Hm := mtot_pos).
  assert (E : match o_ecc o with
     | Some d => rotate_vector o ((- (o_K0 o * m)) * kepler_sinf (Mof t) eo)
                   ((o_K0 o * m) * (kepler_cosf (Mof t) eo + e_ecc d))
     | None => rotate_vector o ((- (o_K0 o * m)) * kepler_sinf (Mof t) eo)
                   ((o_K0 o * m) * kepler_cosf (Mof t) eo)
     end = rotate_vector o ((- (o_K0 o * m)) * kepler_sinf (Mof t) eo)
                   ((o_K0 o * m) * (kepler_cosf (Mof t) eo + eo))).
  { destruct (o_ecc o) as [d|] eqn:E.
    - assert (eo = e_ecc d) as -> by (unfold eo, ecc_of; rewrite E; reflexivity). reflexivity.
    - assert (eo = 0) as -> by (unfold eo, ecc_of; rewrite E; reflexivity).
      rewrite Rplus_0_r. reflexivity. }
  simR. rewrite E. rewrite rotate_PQ. unfold vlin. rewrite cosf_form, sinf_form, K0_form.
  f_equal; f_equal.
  - field. repeat split; lra.
  - transitivity (o_a o * m / o_m_total o * o_n o * ((1 - eo * eo) * cos (Eof t)) / Dof t / qo).
    + unfold Dof in *. field. repeat split; lra.
    + rewrite <- Hq2. field. repeat split; lra.
Qed.

Definition alin (c : R) (t : R) : R * R * R :=
  vadd (vscale (- c * (o_n o * o_n o) * px t / (Dof t * Dof t * Dof t)) (Pv o))
       (vscale (- c * (o_n o * o_n o) * py t / (Dof t * Dof t * Dof t)) (Qv o)).

Lemma acceleration_form a m t : a = o_a o * m / o_m_total o -> a <> 0 ->
  get_acceleration o (kep_warp o) a m t = alin a t.
Proof.
  intros Ha Hn0. unfold get_acceleration. rewrite true_anomaly_form.
  assert (HD := Dof_pos t). assert (Hq := qo_pos). assert (Hq2 := qo_sqr). assert (Hm := mtot_pos).
  assert (H1e : 0 < 1 - eo * eo) by (generalize eo_bound; nra).
  assert (HK : o_K0 o * m * (o_K0 o * m) = o_n o * o_n o * (a * a) / (1 - eo * eo)).
  { rewrite K0_form, Ha, <- Hq2. field. split; lra. }
  assert (Hf : 1 + eo * kepler_cosf (Mof t) eo = (1 - eo * eo) / Dof t)
    by (apply kepler_1ecosf, eo_abs).
  assert (E : match o_ecc o with
     | Some d => o_K0 o * m * (o_K0 o * m) *
         ((e_ecc d * kepler_cosf (Mof t) eo + 1) * (e_ecc d * kepler_cosf (Mof t) eo + 1)) /
         (a * (e_ecc d * e_ecc d - 1))
     | None => - (o_K0 o * m * (o_K0 o * m)) / a
     end = - a * (o_n o * o_n o) / (Dof t * Dof t)).
  { destruct (o_ecc o) as [d|] eqn:E.
    - assert (eo = e_ecc d) as <- by (unfold eo, ecc_of; rewrite E; reflexivity).
      rewrite HK. rewrite (Rplus_comm _ 1), Hf. field. repeat split; lra.
    - rewrite HK. assert (He : eo = 0) by (unfold eo, ecc_of; rewrite E; reflexivity).
      unfold Dof. rewrite He. field. lra. }
  simR. rewrite E. rewrite rotate_PQ. unfold alin, px, py. rewrite cosf_form, sinf_form.
  f_equal; f_equal; field; lra.
Qed.

(** ** derivatives *)
Lemma n_pos : 0 < o_n o.
Proof.
  rewrite (of_n _ _ _ F). apply Rdiv_lt_0_compat; [generalize PI_pos; lra|apply (ph_period _ Hph)].
Qed.

Lemma Mof_derive t : is_derive Mof t (o_n o).
Proof. unfold Mof. auto_derive; [auto|ring]. Qed.

Lemma Eof_derive t : is_derive Eof t (o_n o / Dof t).
Proof.
  evar_last.
  - apply (is_derive_comp (fun m => ecc_anom m eo) Mof).
    + apply ecc_anom_derive, eo_abs. + apply Mof_derive.
  - unfold scal; simpl; unfold mult; simpl. reflexivity.
Qed.

Lemma px_derive t : is_derive px t (o_n o * (- sin (Eof t)) / Dof t).
Proof.
  assert (HD := Dof_pos t). unfold px.
  evar_last.
  - apply (is_derive_minus (fun u => cos (Eof u)) (fun _ => eo)).
    + apply (is_derive_comp cos Eof); [apply is_derive_cos|apply Eof_derive].
    + apply (is_derive_const (K := R_AbsRing) (V := R_NormedModule)).
  - unfold scal, minus, plus, opp, zero; simpl; unfold mult; simpl. field. lra.
Qed.
Lemma py_derive t : is_derive py t (o_n o * (qo * cos (Eof t)) / Dof t).
Proof.
  assert (HD := Dof_pos t). unfold py.
  evar_last.
  - apply (is_derive_scal (fun u => sin (Eof u)) t qo).
    apply (is_derive_comp sin Eof); [apply is_derive_sin|apply Eof_derive].
  - unfold scal; simpl; unfold mult; simpl. field. lra.
Qed.
Lemma vpx_derive t : is_derive (fun u => - sin (Eof u) / Dof u) t
  (- (o_n o) * px t / (Dof t * Dof t * Dof t)).
Proof.
  assert (HD := Dof_pos t).
  evar_last.
  - apply (is_derive_comp (fun E => - sin E / (1 - eo * cos E)) Eof).
    + auto_derive; [|reflexivity]. unfold Dof in HD. lra.
    + apply Eof_derive.
  - unfold scal; simpl; unfold mult; simpl. unfold px, Dof in *.
    assert (H := sin2_cos2' (Eof t)).
    replace (sin (Eof t) * sin (Eof t)) with (1 - cos (Eof t) * cos (Eof t)) in * by lra.
    transitivity (- o_n o * ((cos (Eof t) * (1 - eo * cos (Eof t))) - eo * (sin (Eof t) * sin (Eof t)))
       / ((1 - eo * cos (Eof t)) * (1 - eo * cos (Eof t)) * (1 - eo * cos (Eof t)))); [field; lra|].
    replace (sin (Eof t) * sin (Eof t)) with (1 - cos (Eof t) * cos (Eof t)) by
      (generalize (sin2_cos2' (Eof t)); lra).
    field. lra.
Qed.
Lemma vpy_derive t : is_derive (fun u => qo * cos (Eof u) / Dof u) t
  (- (o_n o) * py t / (Dof t * Dof t * Dof t)).
Proof.
  assert (HD := Dof_pos t).
  evar_last.
  - apply (is_derive_comp (fun E => qo * cos E / (1 - eo * cos E)) Eof).
    + auto_derive; [|reflexivity]. unfold Dof in HD. lra.
    + apply Eof_derive.
  - unfold scal; simpl; unfold mult; simpl. unfold py, Dof in *. field. lra.
Qed.

Lemma lin2_derive (f g : R -> R) t f' g' p q c : is_derive f t f' -> is_derive g t g' ->
  is_derive (fun u => c * f u * p + c * g u * q) t (c * f' * p + c * g' * q).
Proof.
  intros Hf Hg. auto_derive.
  - split; [exists f'; auto|]. split; auto. exists g'; auto.
  - rewrite (is_derive_unique (fun u : R => f u) _ _ Hf), (is_derive_unique (fun u : R => g u) _ _ Hg). ring.
Qed.

Lemma lin_vderive c t : vderive (lin c) t (vlin c t).
Proof.
  unfold vderive, lin, vlin. vcrush.
  split; [|split]; evar_last; try (apply lin2_derive; [apply px_derive|apply py_derive]);
    assert (HD := Dof_pos t); field; lra.
Qed.
Lemma vlin_vderive c t : vderive (vlin c) t (alin c t).
Proof.
  unfold vderive, vlin, alin. vcrush. assert (HD := Dof_pos t).
  assert (G : forall p q, is_derive (fun u => c * o_n o * (- sin (Eof u)) / Dof u * p
              + c * o_n o * (qo * cos (Eof u)) / Dof u * q) t
           (- c * (o_n o * o_n o) * px t / (Dof t * Dof t * Dof t) * p
            + - c * (o_n o * o_n o) * py t / (Dof t * Dof t * Dof t) * q)).
  { intros p q.
    apply is_derive_ext with (f := fun u => c * o_n o * (- sin (Eof u) / Dof u) * p
              + c * o_n o * (qo * cos (Eof u) / Dof u) * q).
    - intros u. assert (HDu := Dof_pos u). toR. field. lra.
    - evar_last. apply lin2_derive; [apply vpx_derive|apply vpy_derive]. field. lra. }
  split; [|split]; apply G.
Qed.

(** ** lengths *)
Lemma lin_dot c t : dot (lin c t) (lin c t) = c * c * (Dof t * Dof t).
Proof.
  unfold lin. rewrite lincomb_dot, PP, PQ, QQ. unfold px, py, Dof.
  assert (H := sin2_cos2' (Eof t)). assert (Hq := qo_sqr).
  transitivity (c * c * ((cos (Eof t) - eo) * (cos (Eof t) - eo) +
     (qo * qo) * (sin (Eof t) * sin (Eof t)))); [ring|].
  rewrite Hq. replace (sin (Eof t) * sin (Eof t)) with (1 - cos (Eof t) * cos (Eof t)) by lra. ring.
Qed.
Lemma lin_norm c t : norm (lin c t) = Rabs c * Dof t.
Proof.
  unfold norm. rewrite lin_dot.
  replace (c * c * (Dof t * Dof t)) with ((c * Dof t) * (c * Dof t)) by ring.
  fold (Rsqr (c * Dof t)). rewrite sqrt_Rsqr_abs, Rabs_mult.
  rewrite (Rabs_pos_eq (Dof t)); auto. generalize (Dof_pos t); lra.
Qed.
End S.
