(** * Assembling the motion theorems in the vocabulary of Spec_orbit *)
From Coq Require Import Reals Lra Bool List ZArith Psatz.
From Coquelicot Require Import Coquelicot.
From Verif Require Import Num CoreOps Inst M_units M_kepler Spec_orbit Spec_params.
From Verif Require Import L_real L_kepop L_orbit L_motion L_params3 L_params4 L_pmotion L_pmotion2 L_pmotion3 L_pmotion4 Ex_orbit.
Open Scope R_scope.

Lemma motion_example : exists o, consts_ok ek /\ kep_init ek ex_ecc_args = Ok o /\ physical o /\
  0 < o_m_planet o /\ 0 < o_m_star o /\ ecc_of o = 3 / 10.
Proof. destruct ex_ecc as (o & H & Hp & A & B & C & _). exists o. repeat (split; [first [apply ek_ok|assumption]|]). exact C. Qed.
Lemma moving_example : exists o, consts_ok ek /\ kep_init ek ex_ecc_args = Ok o /\ physical o /\
  moving o Planet /\ moving o Star.
Proof. destruct ex_ecc as (o & H & Hp & A & B & C & _). exists o. repeat (split; [first [apply ek_ok|assumption]|]). exact A. Qed.
Lemma rv_example : exists o c, consts_ok ek /\ kep_init ek ex_ecc_args = Ok o /\ physical o /\
  uto (u_Rsun_per_day ek) (u_mps ek) = Ok c.
Proof.
  destruct ex_ecc as (o & H & Hp & A & B & C & _). exists o. eexists.
  repeat (split; [first [apply ek_ok|assumption]|]). reflexivity.
Qed.
Lemma circ_example : exists o, kep_init ek ex_circ_args = Ok o /\ physical o /\
  ka_ecc ex_circ_args = None /\ ka_duration ex_circ_args = None /\ ka_tper ex_circ_args = None /\ sin 1 <> -1.
Proof.
  destruct ex_circ as (o & H & Hp & _). exists o. repeat (split; [first [assumption|reflexivity]|]).
  assert (0 < sin 1) by (apply sin_gt_0; generalize PI2_1; lra). lra.
Qed.
Lemma true_anomaly_example : 0 <= 9 / 10 < 1 /\ get_true_anomaly (0 : R) (9 / 10) = 0.
Proof.
  split; [lra|].
  assert (A : get_true_anomaly (0 : R) (9 / 10) <> PI).
  { intros E. destruct (gta_E 0 (9 / 10) 0) as [C _]; [lra|rewrite sin_0; ring|].
    rewrite E, cos_PI, cos_0 in C. lra. }
  assert (B := gta_odd 0 (9 / 10) ltac:(lra) A). rewrite Ropp_0 in B. lra.
Qed.

Section S.
Variables (k : consts) (x : kargs R) (o : orbit R).
Hypothesis kok : consts_ok k.
Hypothesis Hinit : kep_init k x = Ok o.
Hypothesis Hph : physical o.
Let F := kep_init_facts k kok x o Hinit Hph.

Lemma n_eq : o_n o = 2 * PI / o_period o.
Proof. exact (of_n _ _ _ F). Qed.
End S.

Lemma distance_law : forall k (x : kargs R) o t,
  consts_ok k -> kep_init k x = Ok o -> physical o ->
  let r u := norm (pos k o Relative u None false) in
  let e := ecc_of o in
  (exists! E, E - e * sin E = 2 * PI / o_period o * (t - o_tper o)) /\
  (forall E, E - e * sin E = 2 * PI / o_period o * (t - o_tper o) -> r t = o_a o * (1 - e * cos E)) /\
  (let p := pos k o Relative t None false in
   let p0 := pos k o Relative (o_tper o) None false in
   r t * (1 + e * (dot p p0 / (norm p * norm p0))) = o_a o * (1 - e * e)) /\
  o_a o * (1 - e) <= r t <= o_a o * (1 + e) /\
  r (o_tper o) = o_a o * (1 - e) /\
  r (o_tper o + o_period o / 2) = o_a o * (1 + e).
Proof.
  intros k x o t kok H Hp r e. rewrite <- (n_eq k x o kok H Hp).
  split; [apply gta_unique_E; apply (eo_bound o Hp)|].
  split; [intros E HE; apply (rel_norm_E k kok x o H Hp t E HE)|].
  split; [apply (rel_conic k kok x o H Hp t)|].
  split; [apply (rel_norm_bounds k kok x o H Hp t)|].
  split; [apply (rel_norm_peri k kok x o H Hp)|apply (rel_norm_apo k kok x o H Hp)].
Qed.

Lemma velocity_is_derivative : forall k (x : kargs R) o b t,
  consts_ok k -> kep_init k x = Ok o -> physical o ->
  vderive (fun u => pos k o b u None false) t (vel o b t).
Proof.
  intros k x o b t kok H Hp. destruct (vel_is_derivative k kok x o H Hp t) as (A & B & C).
  destruct b; assumption.
Qed.

Lemma acceleration_law : forall k (x : kargs R) o t,
  consts_ok k -> kep_init k x = Ok o -> physical o ->
  (forall b, moving o b -> vderive (vel o b) t (acc o b t)) /\
  let p := pos k o Relative t None false in
  acc o Relative t = vscale (- (G_grav k * o_m_total o) / (norm p * norm p * norm p)) p.
Proof.
  intros k x o t kok H Hp. split; [|apply (newton k kok x o H Hp t)].
  destruct (acc_is_derivative k kok x o H Hp t) as (A & B & C).
  intros [] Hm; cbn in Hm; [apply A; assumption|apply B; assumption|apply C].
Qed.

Lemma conserved_quantities : forall k (x : kargs R) o t,
  consts_ok k -> kep_init k x = Ok o -> physical o ->
  let p u := pos k o Relative u None false in
  let v u := vel o Relative u in
  let mu := G_grav k * o_m_total o in
  let L := sqrt (mu * o_a o * (1 - ecc_of o * ecc_of o)) in
  dot (v t) (v t) / 2 - mu / norm (p t) = - mu / (2 * o_a o) /\
  (forall t', cross (p t') (v t') = cross (p t) (v t)) /\
  norm (cross (p t) (v t)) = L /\
  vz (cross (p t) (v t)) = L * o_cos_incl o.
Proof.
  intros k x o t kok H Hp p v mu L. split; [apply (vis_viva k kok x o H Hp t)|].
  assert (A : forall u, cross (p u) (v u) = vscale L (- sinO o * o_sin_incl o, cosO o * o_sin_incl o, o_cos_incl o)).
  { intro u. apply (ang_mom k kok x o H Hp u). }
  split; [intro t'; rewrite !A; reflexivity|].
  rewrite A. split; [|reflexivity].
  unfold norm, dot, vscale, vx, vy, vz; cbn [fst snd].
  assert (HL : 0 <= L) by apply sqrt_pos.
  destruct (b_incl_relation k kok x o H Hp) as (Ec & Es & _).
  assert (Hi : o_sin_incl o * o_sin_incl o + o_cos_incl o * o_cos_incl o = 1).
  { rewrite Ec, Es. generalize (sin2_cos2' (o_incl o)). lra. }
  assert (HO : sinO o * sinO o + cosO o * cosO o = 1) by (generalize (O_unit k kok x o H Hp); lra).
  transitivity (sqrt (L * L)); [f_equal|apply sqrt_square; exact HL].
  transitivity (L * L * ((sinO o * sinO o + cosO o * cosO o) * (o_sin_incl o * o_sin_incl o) + o_cos_incl o * o_cos_incl o)); [ring|].
  rewrite HO, Rmult_1_l, Hi. ring.
Qed.

Lemma periodic_motion : forall k (x : kargs R) o t (j : Z) par ld K u,
  consts_ok k -> kep_init k x = Ok o -> physical o ->
  let t' := t + IZR j * o_period o in
  (forall b, pos k o b t' par ld = pos k o b t par ld /\ vel o b t' = vel o b t /\ acc o b t' = acc o b t) /\
  get_relative_angles k o (kep_warp o) t' par ld = get_relative_angles k o (kep_warp o) t par ld /\
  get_radial_velocity k o (kep_warp o) t' K u = get_radial_velocity k o (kep_warp o) t K u.
Proof.
  intros k x o t j par ld K u kok H Hp t'.
  destruct (motion_periodic k kok x o H Hp t j par ld K u) as (A1 & A2 & A3 & A4 & A5 & A6 & A7 & A8 & A9 & A10 & A11).
  split; [intros []; cbn; auto|]. split; assumption.
Qed.

Lemma radial_velocity_law : forall k (x : kargs R) o t,
  consts_ok k -> kep_init k x = Ok o -> physical o ->
  let rv K u := get_radial_velocity k o (kep_warp o) t K u in
  let z s := vz (pos k o Star s None false) in
  ex_derive z t /\
  (forall u c, uto (u_Rsun_per_day k) u = Ok c ->
     rv None (Some u) = Ok (- c * Derive z t) /\
     rv None (Some u) = rv (Some (c * (o_K0 o * o_m_planet o * o_sin_incl o))) None) /\
  rv None None = rv None (Some (u_mps k)) /\
  (forall u, udim u <> (0, 1, -1)%Z -> rv None (Some u) = Err UnitErr) /\
  (forall K u v, 0 <= K -> rv (Some K) u = Ok v ->
     K * (ecc_of o * cosw_of o - 1) <= v <= K * (ecc_of o * cosw_of o + 1)).
Proof.
  intros k x o t kok H Hp rv z.
  destruct (vel_is_derivative k kok x o H Hp t) as (_ & (_ & _ & Dz) & _).
  split; [eexists; exact Dz|]. split.
  { intros u c Hu. split; [|apply (rv_K_form k o t u c Hu)].
    assert (E : rv None (Some u) = rv (Some (c * (o_K0 o * o_m_planet o * o_sin_incl o))) None) by apply (rv_K_form k o t u c Hu).
    destruct (rv None (Some u)) as [r|er] eqn:Er.
    - destruct (rv_derivative k kok x o H Hp t u r Er) as (c' & Hc' & -> & _).
      rewrite Hu in Hc'. apply Ok_inj in Hc'. subst c'. reflexivity.
    - exfalso. symmetry in E. unfold rv, get_radial_velocity in E.
      destruct (true_anomaly o (kep_warp o) true t) as [sf cf]. discriminate E. }
  split; [apply (rv_default_unit k o t)|]. split; [apply (rv_bad_unit k o t)|].
  intros K u v. apply (rv_bounds k x o Hp t K u v) || apply (rv_bounds k kok x o H Hp t K u v).
Qed.

Lemma light_delay_law : forall k (x : kargs R) o b t par,
  consts_ok k -> kep_init k x = Ok o -> physical o -> moving o b ->
  let z u := vz (pos k o b u None false) in
  let v := vz (vel o b t) in
  let a := vz (acc o b t) in
  v < c_light k ->
  2 * a * (0 - z t) <= (c_light k - v) * (c_light k - v) ->
  exists d,
    pos k o b t par true = pos k o b (t - d) None false /\
    (Rabs a < 1 / 10000000000 -> c_light k * d = - (z t - v * d)) /\
    (1 / 10000000000 <= Rabs a -> c_light k * d = - (z t - v * d - a / 2 * (d * d)) /\
       (z t <> 0 -> c_light k * d <> - (z t - v * d + a / 2 * (d * d)))) /\
    Rabs (c_light k * d - - z (t - d))
      <= o_a o * ((2 * PI / o_period o) * (2 * PI / o_period o)) / ((1 - ecc_of o) * (1 - ecc_of o)) * (d * d).
Proof.
  intros k x o b t par kok H Hp Hm z v a Hv Hd.
  rewrite <- (n_eq k x o kok H Hp).
  destruct (light_delay_body k kok x o H Hp b t par Hm Hv Hd) as (d & E & A & B & C).
  exists d. split; [exact E|]. split; [exact A|]. split; [|exact C].
  intro Ha. specialize (B Ha). split; [exact B|]. intros Hz E2.
  fold z v a in B, E2.
  assert (key : forall c' a' v' z' d', c' * d' = - (z' - v' * d' - a' / 2 * (d' * d')) ->
    c' * d' = - (z' - v' * d' + a' / 2 * (d' * d')) -> a' * (d' * d') = 0) by (intros; nra).
  assert (E3 := key _ _ _ _ _ B E2).
  assert (Ha0 : a <> 0) by (intro Z; rewrite Z, Rabs_R0 in Ha; lra).
  assert (Hd0 : d * d = 0) by (destruct (Rmult_integral _ _ E3); [contradiction|assumption]).
  assert (d0 : d = 0) by nra. rewrite d0 in B. rewrite !Rmult_0_r in B.
  assert (key2 : forall z', 0 = - (z' - 0 - 0) -> z' = 0) by (intros; lra). exact (Hz (key2 _ B)).
Qed.

Lemma light_delay_example : exists o, consts_ok ek /\ kep_init ek ex_circ_args = Ok o /\ physical o /\
  moving o Relative /\
  let t := o_t0 o in
  vz (vel o Relative t) < c_light ek /\
  2 * vz (acc o Relative t) * (0 - vz (pos ek o Relative t None false))
    <= (c_light ek - vz (vel o Relative t)) * (c_light ek - vz (vel o Relative t)) /\
  1 / 10000000000 <= Rabs (vz (acc o Relative t)) /\ vz (pos ek o Relative t None false) <> 0.
Proof.
  destruct ex_circ as (o & H & Hp & Mp & Ms & Ee & Hb & HP & Ht & Hr & Ha & Hsi).
  exists o. split; [apply ek_ok|]. split; [exact H|]. split; [exact Hp|]. split; [exact I|].
  assert (Ez : vz (pos ek o Relative (o_t0 o) None false) = o_a o).
  { assert (Hw : sinw_of o <> -1) by (unfold sinw_of; rewrite Ee; lra).
    destruct (mid_transit ek ex_circ_args o ek_ok H Hp Hw) as (_ & E & _). cbn. rewrite E, Hsi.
    unfold ecc_of, sinw_of. rewrite Ee. field. }
  assert (Nz : norm (pos ek o Relative (o_t0 o) None false) = o_a o).
  { generalize (rel_norm_bounds ek ek_ok ex_circ_args o H Hp (o_t0 o)). unfold ecc_of. rewrite Ee.
    cbn. lra. }
  destruct (acceleration_law ek ex_circ_args o (o_t0 o) ek_ok H Hp) as [_ Ac]. cbv zeta in Ac.
  assert (Ea : vz (acc o Relative (o_t0 o)) = - (o_n o * o_n o) * o_a o).
  { rewrite Ac, Nz. unfold vscale, vz at 1. cbn [snd]. rewrite Ez.
    rewrite <- (n2a3 ek ek_ok ex_circ_args o H Hp). field. lra. }
  (* |v|^2 = n^2 a^2 *)
  assert (V := vis_viva ek ek_ok ex_circ_args o H Hp (o_t0 o)). cbv zeta in V.
  change (get_relative_position ek o (kep_warp o) (o_t0 o) None false) with (pos ek o Relative (o_t0 o) None false) in V.
  change (get_relative_velocity o (kep_warp o) (o_t0 o)) with (vel o Relative (o_t0 o)) in V.
  rewrite Nz, <- (n2a3 ek ek_ok ex_circ_args o H Hp) in V.
  set (v := vel o Relative (o_t0 o)) in *.
  assert (V2 : dot v v = o_n o * o_n o * (o_a o * o_a o)).
  { assert (dot v v / 2 = o_n o * o_n o * (o_a o * o_a o) / 2).
    { replace (dot v v / 2) with (dot v v / 2 - o_n o * o_n o * (o_a o * o_a o * o_a o) / o_a o + o_n o * o_n o * (o_a o * o_a o * o_a o) / o_a o) by ring.
      rewrite V. field. lra. }
    lra. }
  assert (Hn : o_n o = PI / 5) by (rewrite (n_eq ek ex_circ_args o ek_ok H Hp), HP; field).
  assert (P := PI_RGT_0). assert (P4 := PI_4).
  assert (P3 : 3 < PI) by (generalize PI2_3_2; lra).
  assert (Hna : o_n o * o_a o < 100).
  { rewrite Hn. assert (A3 := n2a3 ek ek_ok ex_circ_args o H Hp). rewrite Hn in A3.
    assert (G : G_grav ek * o_m_total o <= 6000) by exact (ex_circ_mu o H).
    assert (o_a o < 100).
    { destruct (Rlt_dec (o_a o) 100); [assumption|exfalso].
      assert (9 / 25 <= PI / 5 * (PI / 5)) by nra.
      assert (100 * 100 <= o_a o * o_a o) by nra.
      assert (100 * 100 * 100 <= o_a o * o_a o * o_a o) by nra. nra. }
    nra. }
  assert (Hn0 : 0 < o_n o) by (rewrite Hn; lra).
  assert (Hc : c_light ek > 1000) by exact ex_c_light.
  assert (Hvz : - (o_n o * o_a o) <= vz v <= o_n o * o_a o).
  { assert (vz v * vz v <= (o_n o * o_a o) * (o_n o * o_a o)).
    { replace ((o_n o * o_a o) * (o_n o * o_a o)) with (dot v v) by (rewrite V2; ring).
      unfold dot. nra. }
    assert (0 < o_n o * o_a o) by nra. nra. }
  cbv zeta. fold v. rewrite Ez, Ea. split; [lra|]. split; [|split; [|lra]].
  - assert (0 < o_n o * o_a o) by nra.
    replace (2 * (- (o_n o * o_n o) * o_a o) * (0 - o_a o)) with (2 * (o_n o * o_a o) * (o_n o * o_a o)) by ring. nra.
  - rewrite Rabs_left; [|nra]. rewrite Hn. nra.
Qed.

Lemma true_anomaly_law : forall M e : R, 0 <= e < 1 ->
  (exists! E, E - e * sin E = M) /\
  - PI < get_true_anomaly M e <= PI /\
  (forall E, E - e * sin E = M ->
     cos (get_true_anomaly M e) = (cos E - e) / (1 - e * cos E) /\
     sin (get_true_anomaly M e) = sqrt (1 - e * e) * sin E / (1 - e * cos E) /\
     (cos (E / 2) <> 0 -> tan (get_true_anomaly M e / 2) = sqrt ((1 + e) / (1 - e)) * tan (E / 2))) /\
  (forall j : Z, get_true_anomaly (M + IZR j * (2 * PI)) e = get_true_anomaly M e) /\
  (get_true_anomaly M e <> PI -> get_true_anomaly (- M) e = - get_true_anomaly M e) /\
  (exists j : Z, get_true_anomaly M 0 = M + IZR j * (2 * PI)).
Proof.
  intros M e He. split; [apply gta_unique_E; exact He|]. split; [apply gta_range|].
  split; [|split; [intro j; apply gta_periodic; exact He|split; [apply gta_odd; exact He|apply gta_circ]]].
  intros E HE. destruct (gta_E M e E He HE) as [A B]. split; [exact A|]. split; [exact B|].
  apply gta_tan; assumption.
Qed.

Lemma flip_law : forall k (x : kargs R) o r,
  consts_ok k -> kep_init k x = Ok o -> physical o -> 0 < r ->
  exists o', flip k o r = Ok o' /\ physical o' /\ o_r_star o' = r /\
    o_m_star o' = o_m_planet o /\ o_m_planet o' = o_m_star o /\
    (forall t par, pos k o' Planet t par false = pos k o Star t par false /\
                   pos k o' Star t par false = pos k o Planet t par false /\
                   vel o' Planet t = vel o Star t /\ vel o' Star t = vel o Planet t) /\
    (forall r', 0 < r' -> exists o2, flip k o' r' = Ok o2 /\ o_r_star o2 = r' /\ same_motion k o o2).
Proof.
  intros k x o r kok H Hp Hr.
  destruct (flip_init k x o r kok H Hp Hr) as (o' & Ho' & Hp' & _ & _ & E1 & E2 & E3 & _).
  exists o'. split; [exact Ho'|]. split; [exact Hp'|]. split; [exact E1|]. split; [exact E2|]. split; [exact E3|]. split.
  - intros t par. destruct (flip_motion k x o r o' kok H Hp Hr Ho' t) as (A & B & C & D).
    split; [apply A|]. split; [apply B|]. split; [apply C|apply D].
  - intros r' Hr'. apply (flip_twice k x o r o' r' kok H Hp Hr Hr' Ho').
Qed.
