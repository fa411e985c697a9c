(** * Impact parameters no orbit can have: one planet *)
From Coq Require Import Reals List Bool Arith ZArith Lra Lia Psatz.
From Verif Require Import Num CoreOps Inst M_units M_kepler M_fin M_tensor Spec_orbit Spec_params Spec_array Spec_reach
  L_real L_orbit L_kepop L_motion L_params3 L_params4 L_fl L_fl2 L_fl3 L_fl4.
Import ListNotations.
Open Scope R_scope.

(** ** The constructor *)
Section G.
Context {T B} {N : Num T B}.
Variable k : consts.
Definition put_b (b : T) (o : orbit T) : orbit T :=
  {| o_a := o_a o; o_period := o_period o; o_rho_star := o_rho_star o; o_r_star := o_r_star o;
     o_m_star := o_m_star o; o_m_planet := o_m_planet o; o_m_total := o_m_total o; o_n := o_n o;
     o_a_star := o_a_star o; o_a_planet := o_a_planet o; o_K0 := o_K0 o; o_Omega := o_Omega o; o_ecc := o_ecc o;
     o_M0 := o_M0 o; o_dcosidb := o_dcosidb o; o_b := b; o_cos_incl := nmul (o_dcosidb o) b;
     o_incl := nacos (nmul (o_dcosidb o) b); o_sin_incl := nsin (nacos (nmul (o_dcosidb o) b));
     o_t0 := o_t0 o; o_tper := o_tper o; o_tref := o_tref o; o_jac := o_jac o; o_duration := o_duration o |}.
Lemma kep_init_b (x : kargs T) (b c : T) : ka_duration x = None ->
  kep_init k (set_incl x (Some b) None) = rmap (put_b b) (kep_init k (set_incl x (Some c) None)).
Proof.
  intro Hd. unfold kep_init.
  change (kep_units (set_incl x (Some b) None)) with (kep_units (set_incl x (Some c) None)). destruct (kep_units (set_incl x (Some c) None)) as [[mpl rho]|]; [cbn [rbind rmap]|reflexivity].
  assert (D : forall v, kep_duration (set_incl x (Some v) None) = Ok (ka_a x, ka_r_star x, None, None)).
  { intro v. unfold kep_duration, set_incl. cbn [ka_ecc ka_duration ka_r_star ka_a]. rewrite Hd. destruct (ka_ecc x); reflexivity. }
  rewrite !D. cbn [rbind]. unfold set_incl at 1 2 5 6. cbn [ka_period ka_m_star].
  destruct (consistent_inputs k _ _ _ _ _ _) as [[[[[[A P] RHO] RS] MS] MP]|]; [cbn [rbind rmap]|reflexivity].
  change (kep_omega (set_incl x (Some b) None)) with (kep_omega (set_incl x (Some c) None)). destruct (kep_omega (set_incl x (Some c) None)) as [ed|]; [cbn [rbind rmap]|reflexivity].
  unfold kep_incl, set_incl at 1 2 5 6. cbn [ka_b ka_incl is_none negb orb rbind].
  change (kep_times (set_incl x (Some b) None)) with (kep_times (set_incl x (Some c) None)).
  destruct (kep_times _ _ _ _) as [[t0 tp]|]; reflexivity.
Qed.
End G.

Section S.
Variable k : consts.
Hypothesis kok : consts_ok k.

Lemma one_e_s o : physical o -> 0 < 1 + ecc_of o * sinw_of o /\ 0 < 1 - ecc_of o * ecc_of o.
Proof.
  intro ph. unfold ecc_of, sinw_of. destruct (o_ecc o) as [d|] eqn:E; [|lra].
  assert (He := ph_ecc _ ph d E). assert (Hw := ph_omega _ ph d E). assert (-1 <= e_sinw d <= 1) by nra. split; nra.
Qed.
Lemma separation_pos o : physical o -> 0 < separation o.
Proof.
  intro ph. destruct (one_e_s o ph). unfold separation. apply Rdiv_lt_0_compat; [|assumption]. apply Rmult_lt_0_compat; [apply (ph_a _ ph)|assumption].
Qed.
Lemma dcosidb_sep x o : kep_init k x = Ok o -> physical o -> o_dcosidb o = o_r_star o / separation o.
Proof.
  intros H ph. assert (F := kep_init_facts k kok x o H ph). rewrite (of_dcosidb _ _ _ F). unfold separation.
  destruct (one_e_s o ph). assert (Ha := ph_a _ ph). field. repeat split; lra.
Qed.

(** the orbit with an unreachable impact parameter *)
Definition beyond (o : orbit R) (b : R) : orbit fl :=
  {| o_a := Fin (o_a o); o_period := Fin (o_period o); o_rho_star := Fin (o_rho_star o); o_r_star := Fin (o_r_star o);
     o_m_star := Fin (o_m_star o); o_m_planet := Fin (o_m_planet o); o_m_total := Fin (o_m_total o); o_n := Fin (o_n o);
     o_a_star := Fin (o_a_star o); o_a_planet := Fin (o_a_planet o); o_K0 := Fin (o_K0 o);
     o_Omega := option_map (map_omgd Fin) (o_Omega o); o_ecc := option_map (map_eccd Fin) (o_ecc o);
     o_M0 := Fin (o_M0 o); o_dcosidb := Fin (o_dcosidb o); o_b := Fin b; o_cos_incl := Fin (o_dcosidb o * b);
     o_incl := NaN; o_sin_incl := NaN;
     o_t0 := Fin (o_t0 o); o_tper := Fin (o_tper o); o_tref := Fin (o_tref o);
     o_jac := option_map (map_jacd Fin) (o_jac o); o_duration := option_map Fin (o_duration o) |}.

Lemma fin_set_incl (x : kargs R) b : fin_args (set_incl x (Some b) None) = set_incl (fin_args x) (Some (Fin b)) None.
Proof. reflexivity. Qed.
Lemma set_incl_id {T} (x : kargs T) b : ka_b x = b -> ka_incl x = None -> set_incl x b None = x.
Proof. intros <- H. destruct x. cbn in *. subst. reflexivity. Qed.

Lemma unreachable_init x o b : unreachable k x o b -> kep_init k (fin_args x) = Ok (beyond o b).
Proof.
  intros [Hb Hi Hd H ph far].
  assert (E : fin_args x = set_incl (fin_args x) (Some (Fin b)) None).
  { symmetry. apply set_incl_id; unfold fin_args; cbn [map_args ka_b ka_incl]; [rewrite Hb|rewrite Hi]; reflexivity. }
  assert (E0 : kep_init k (set_incl (fin_args x) (Some (Fin 0)) None) = Ok (fin_orbit o)).
  { rewrite <- fin_set_incl. apply kep_init_fin; [exact kok|exact H|exact ph|].
    unfold no_ecc_duration. cbn [set_incl ka_duration ka_ecc]. auto. }
  rewrite E. rewrite (kep_init_b k (fin_args x) (Fin b) (Fin 0)), E0. 2:{ unfold fin_args. cbn [map_args ka_duration]. rewrite Hd. reflexivity. }
  cbn [rmap]. f_equal. unfold put_b, beyond, fin_orbit.
  cbn [map_orbit o_a o_period o_rho_star o_r_star o_m_star o_m_planet o_m_total o_n o_a_star
    o_a_planet o_K0 o_Omega o_ecc o_M0 o_dcosidb o_b o_cos_incl o_incl o_sin_incl o_t0 o_tper o_tref o_jac o_duration].
  cbn [nmul nacos nsin NumF fmul].
  assert (A : farc acos (Fin (o_dcosidb o * b)) = NaN).
  { cbn [farc]. assert (S := separation_pos o ph). assert (D := dcosidb_sep _ o H ph).
    assert (1 < Rabs (o_dcosidb o * b)).
    { rewrite D, Rabs_mult, Rabs_pos_eq. 2:{ left. apply Rdiv_lt_0_compat; [apply (ph_r_star _ ph)|exact S]. }
      apply Rmult_lt_reg_r with (separation o); [exact S|]. replace (o_r_star o / separation o * Rabs b * separation o) with (Rabs b * o_r_star o) by (field; lra). lra. }
    unfold Rleb. revert H0. unfold Rabs. destruct (Rcase_abs _); intro; repeat (destruct (Rle_dec _ _); cbn); try reflexivity; lra. }
  rewrite A. reflexivity.
Qed.

(** within reach the constructor gives an ordinary orbit *)
Lemma reachable_init x o b : ka_b x = Some b -> ka_incl x = None -> ka_duration x = None ->
  kep_init k (set_incl x (Some 0) None) = Ok o -> physical o -> Rabs b * o_r_star o <= separation o ->
  exists o', kep_init k x = Ok o' /\ physical o' /\ kep_init k (fin_args x) = Ok (fin_orbit o') /\
    o_cos_incl o' = b * o_r_star o / separation o.
Proof.
  intros Hb Hi Hd H ph near. assert (S := separation_pos o ph). assert (D := dcosidb_sep _ o H ph). assert (Pr := ph_r_star _ ph).
  assert (E : kep_init k x = Ok (put_b b o)).
  { rewrite <- (set_incl_id x (Some b) Hb Hi). rewrite (kep_init_b k x b 0 Hd), H. reflexivity. }
  assert (C : nmul (o_dcosidb o) b = b * o_r_star o / separation o).
  { cbn [nmul NumR]. rewrite D. field. lra. }
  assert (P : physical (put_b b o)).
  { destruct ph as [pa pp pr pm pmp pmt pci pe po]. constructor; cbn [put_b o_a o_period o_r_star o_m_star o_m_planet o_cos_incl o_ecc]; try assumption.
    rewrite C. assert (-1 <= b * (o_r_star o / separation o) <= 1); [|unfold Rdiv in *; lra].
    assert (Q : Rabs (b * (o_r_star o / separation o)) <= 1).
    { rewrite Rabs_mult, (Rabs_pos_eq (o_r_star o / separation o)). 2:{ left. apply Rdiv_lt_0_compat; assumption. }
      apply Rmult_le_reg_r with (separation o); [exact S|]. replace (Rabs b * (o_r_star o / separation o) * separation o) with (Rabs b * o_r_star o) by (field; lra). lra. }
    revert Q. unfold Rabs. destruct (Rcase_abs _); lra. }
  exists (put_b b o). split; [exact E|]. split; [exact P|]. split; [|exact C].
  apply kep_init_fin; [exact kok|exact E|exact P|]. unfold no_ecc_duration. auto.
Qed.

(** ** Motion *)
Variables (o : orbit R) (b : R).
Hypothesis ph : physical o.
Hypothesis edge : o_sin_incl o = 1 /\ o_cos_incl o = 0.
Variable w : bool -> R -> R.
Variable wf : bool -> fl -> fl.
Hypothesis Hw : forall pad t, wf pad (Fin t) = Fin (w pad t).
Local Notation fo := (beyond o b).
Ltac pr := cbn [beyond map_vec fin3 o_a o_period o_rho_star o_r_star o_m_star o_m_planet o_m_total o_n o_a_star
    o_a_planet o_K0 o_Omega o_ecc o_M0 o_dcosidb o_b o_cos_incl o_incl o_sin_incl o_t0 o_tper o_tref o_jac o_duration
    option_map map_eccd map_omgd e_ecc e_cosw e_sinw e_omega O_cos O_sin O_Omega fst snd].

Lemma ta_beyond pad t : true_anomaly fo wf pad t = true_anomaly (fin_orbit o) wf pad t.
Proof. reflexivity. Qed.
(** where the planet appears: tilted by the cosine alone *)
Definition seen (v : R * R * R) : fl * fl * fl :=
  let y1 := - vz v in let c := o_dcosidb o * b in
  (Fin (vx v - sinO_of o * (c * y1)), Fin (vy v + cosO_of o * (c * y1)), NaN).
Lemma rot_beyond x y : rotate_vector fo (Fin x) (Fin y) = seen (rotate_vector o x y).
Proof.
  destruct edge as [Es Ec]. unfold rotate_vector, seen, vx, vy, vz, sinO_of, cosO_of. pr. rewrite Es, Ec.
  destruct (o_ecc o) as [d|], (o_Omega o) as [W|]; pr; fn; cbn [fneg fmul fadd fsub NumR nneg];
  repeat match goal with |- (_, _) = (_, _) => f_equal | |- Fin _ = Fin _ => f_equal; cbn; ring end; try reflexivity.
Qed.
Lemma pos_beyond a t : position_nodelay k fo wf (Fin a) (Fin t) None true = seen (position_nodelay k o w a t None true).
Proof.
  unfold position_nodelay. rewrite ta_beyond, (ta_fin o ph w wf Hw). assert (C := conic_pos o ph w true t).
  destruct (true_anomaly o w true t) as [s c]. cbn [fst snd] in *. pr.
  destruct (o_ecc o) as [d|] eqn:E; pr.
  - specialize (C d eq_refl). fn. rewrite fdiv_fin by (unfold Rminus; lra). fn. rewrite rot_beyond. reflexivity.
  - fn. rewrite rot_beyond. reflexivity.
Qed.
Lemma vel_beyond m t : snd (get_velocity fo wf (Fin m) (Fin t)) = NaN.
Proof.
  unfold get_velocity. rewrite ta_beyond, (ta_fin o ph w wf Hw). destruct (true_anomaly o w true t) as [s c]. cbn [fst snd]. pr.
  destruct (o_ecc o) as [d|] eqn:E; pr; fn; rewrite rot_beyond; reflexivity.
Qed.
End S.
