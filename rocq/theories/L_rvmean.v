(** * Means and extremes of radial velocities *)
From Coq Require Import Reals Lra Bool List ZArith Psatz.
From Coquelicot Require Import Coquelicot.
From Verif Require Import Num CoreOps Inst M_units M_kepler Spec_orbit Spec_params.
From Verif Require Import L_real L_kepop L_orbit L_motion L_params3 L_params4 L_pmotion L_pmotion2 L_pmotion5 Ex_orbit.
Open Scope R_scope.

Lemma unit_angle c s : c * c + s * s = 1 -> exists E, cos E = c /\ sin E = s.
Proof.
  intro U. exists (Ratan2 s c). destruct (Ratan2_polar s c) as [-> ->]; [lra|]. rewrite U, sqrt_1. split; field.
Qed.
Section S.
Variables (k : consts) (x : kargs R) (o : orbit R).
Hypothesis kok : consts_ok k.
Hypothesis Hinit : kep_init k x = Ok o.
Hypothesis Hph : physical o.
Let F := kep_init_facts k kok x o Hinit Hph.
Local Notation W := (kep_warp o).
Local Notation e := (ecc_of o).
Local Notation cw := (cosw_of o).
Local Notation sw := (sinw_of o).

Definition rvf (K t : R) : R := K * (cw * kepler_cosf (Mof o t) e - sw * kepler_sinf (Mof o t) e + e * cw).
Lemma rvf_is K u t : get_radial_velocity k o W t (Some K) u = Ok (rvf K t).
Proof.
  unfold get_radial_velocity. rewrite (true_anomaly_form k kok x o Hinit Hph). change (eo o) with e. unfold rvf, ecc_of, cosw_of, sinw_of.
  destruct (o_ecc o) as [d|]; simR; f_equal; ring.
Qed.
Definition Sf (K t : R) : R := K * qo o / o_n o * (cw * py o t + sw * px o t).
Lemma rvf_derive K t : is_derive (Sf K) t (rvf K t).
Proof.
  assert (Hn := n_pos k kok x o Hinit Hph). assert (HD := Dof_pos o Hph t). assert (Hq := qo_pos o Hph). assert (Hq2 := qo_sqr o Hph).
  evar_last.
  - unfold Sf. apply (is_derive_scal (fun s => cw * py o s + sw * px o s) t (K * qo o / o_n o)).
    apply (is_derive_plus (fun s => cw * py o s) (fun s => sw * px o s)); apply is_derive_scal; [apply (py_derive o Hph)|apply (px_derive o Hph)].
  - unfold scal, plus; simpl; unfold mult; simpl. unfold rvf. change e with (eo o). rewrite (cosf_form o), (sinf_form o).
    transitivity (K * (cw * ((qo o * qo o) * cos (Eof o t)) - sw * qo o * sin (Eof o t)) / Dof o t).
    + field. split; lra.
    + rewrite Hq2. unfold Dof in *. field. lra.
Qed.
Lemma rvf_cont K t : continuous (rvf K) t.
Proof.
  assert (D : forall s, ex_derive (Eof o) s) by (intro s; eexists; apply (Eof_derive o Hph)).
  apply (ex_derive_continuous (rvf K)). unfold rvf. change e with (eo o).
  apply (ex_derive_ext (fun t => K * (cw * ((cos (Eof o t) - eo o) / Dof o t) - sw * (qo o * sin (Eof o t) / Dof o t) + eo o * cw))).
  { intro s. rewrite (cosf_form o), (sinf_form o). reflexivity. }
  unfold Dof. assert (HD := Dof_pos o Hph t). unfold Dof in HD. auto_derive. repeat split; try apply D; lra.
Qed.
Lemma rvf_int K a b : is_RInt (rvf K) a b (Sf K b - Sf K a).
Proof.
  apply (is_RInt_derive (Sf K) (rvf K)); intros s _; [apply rvf_derive|apply rvf_cont].
Qed.
Lemma per_pos : 0 < o_period o. Proof. apply (ph_period _ Hph). Qed.
Lemma Sf_period K t : Sf K (t + o_period o) = Sf K t.
Proof.
  assert (E : Eof o (t + o_period o) = Eof o t + 2 * PI).
  { unfold Eof. apply ecc_anom_unique; [apply (eo_abs o Hph)|]. rewrite sin_plus, cos_2PI, sin_2PI.
    assert (S := ecc_anom_spec (Mof o t) (eo o) (eo_abs o Hph)).
    replace (Mof o (t + o_period o)) with (Mof o t + 2 * PI); [lra|].
    unfold Mof. rewrite (of_n _ _ _ F). field. generalize per_pos. lra. }
  unfold Sf, px, py. rewrite E, sin_plus, cos_plus, cos_2PI, sin_2PI. f_equal. ring.
Qed.
Lemma mean_zero K T : is_RInt (rvf K) T (T + o_period o) 0.
Proof. replace 0 with (Sf K (T + o_period o) - Sf K T); [apply rvf_int|]. rewrite Sf_period. lra. Qed.

(** every direction is taken once a period *)
Lemma angle_taken c s : c * c + s * s = 1 -> exists t, kepler_cosf (Mof o t) e = c /\ kepler_sinf (Mof o t) e = s.
Proof.
  intro U. assert (He := eo_bound o Hph). change (eo o) with e in He. assert (Hq := qo_pos o Hph). assert (Hq2 := qo_sqr o Hph). change (eo o) with e in Hq2.
  assert (Hc : -1 <= c <= 1) by nra. assert (Hd : 0 < 1 + e * c) by nra.
  destruct (unit_angle ((c + e) / (1 + e * c)) (qo o * s / (1 + e * c))) as (E & EC & ES).
  { transitivity (((c + e) * (c + e) + (qo o * qo o) * (s * s)) / ((1 + e * c) * (1 + e * c))); [field; lra|].
    rewrite Hq2. replace (s * s) with (1 - c * c) by lra. field. lra. }
  assert (Hn := n_pos k kok x o Hinit Hph).
  exists (o_tper o + (E - e * sin E) / o_n o).
  assert (EE : Eof o (o_tper o + (E - e * sin E) / o_n o) = E).
  { unfold Eof. apply ecc_anom_unique; [apply (eo_abs o Hph)|]. unfold Mof. change (eo o) with e. field. lra. }
  set (t := o_tper o + _) in *. clearbody t. change e with (eo o). rewrite (cosf_form o), (sinf_form o). unfold Dof. rewrite EE. change (eo o) with e. rewrite EC, ES.
  assert (Hd' : 1 - e * ((c + e) / (1 + e * c)) = (qo o * qo o) / (1 + e * c)) by (rewrite Hq2; field; lra).
  rewrite Hd'. split.
  - transitivity (c * (1 - e * e) / (qo o * qo o)); [field; split; lra|]. rewrite Hq2. field. nra.
  - field. split; lra.
Qed.
Lemma into_window T t : exists z : Z, T <= t + IZR z * o_period o < T + o_period o.
Proof.
  assert (P := per_pos). assert (B := Rmodulo_bounds (t - T) (o_period o) P). destruct (Rmodulo_eq (t - T) (o_period o)) as [z E].
  exists (- z)%Z. rewrite opp_IZR. rewrite E in B. lra.
Qed.
Lemma rvf_period K t (z : Z) : rvf K (t + IZR z * o_period o) = rvf K t.
Proof.
  assert (A := motion_periodic k kok x o Hinit Hph t z None false (Some K) None). cbv zeta in A.
  destruct A as (_ & _ & _ & _ & _ & _ & _ & _ & _ & _ & A). rewrite !rvf_is in A. apply Ok_inj in A. exact A.
Qed.
Lemma reaches K c s T : c * c + s * s = 1 -> exists t, T <= t < T + o_period o /\ rvf K t = K * (cw * c - sw * s + e * cw).
Proof.
  intro U. destruct (angle_taken c s U) as (t & C & D). destruct (into_window T t) as (z & B).
  exists (t + IZR z * o_period o). split; [exact B|]. rewrite rvf_period. unfold rvf. rewrite C, D. reflexivity.
Qed.
Lemma extremes K T : exists t1 t2, T <= t1 < T + o_period o /\ T <= t2 < T + o_period o /\
  rvf K t1 = K * (e * cw + 1) /\ rvf K t2 = K * (e * cw - 1).
Proof.
  assert (U := w_unit o Hph).
  destruct (reaches K cw (- sw) T) as (t1 & B1 & E1); [lra|].
  destruct (reaches K (- cw) sw T) as (t2 & B2 & E2); [lra|].
  exists t1, t2. repeat (split; [assumption|]). rewrite E1, E2. split.
  - transitivity (K * (cw * cw + sw * sw + e * cw)); [ring|rewrite U; ring].
  - transitivity (K * (- (cw * cw + sw * sw) + e * cw)); [ring|rewrite U; ring].
Qed.
Lemma semi_amplitude : let K := o_K0 o * o_m_planet o * o_sin_incl o in let q := sqrt (1 - e * e) in
  K = 2 * PI / o_period o * (o_a o * o_m_planet o / o_m_total o) * o_sin_incl o / q /\
  o_period o * (K * q * (K * q) * (K * q)) * (o_m_total o * o_m_total o) =
    2 * PI * G_grav k * (o_m_planet o * o_sin_incl o * (o_m_planet o * o_sin_incl o) * (o_m_planet o * o_sin_incl o)).
Proof.
  intros K q. assert (Hq : 0 < q) by apply (qo_pos o Hph). assert (Hm := mtot_pos k kok x o Hinit Hph). assert (P := per_pos).
  assert (A : K = 2 * PI / o_period o * (o_a o * o_m_planet o / o_m_total o) * o_sin_incl o / q).
  { unfold K. rewrite (of_K0 _ _ _ F), (of_n _ _ _ F). fold q. field. repeat split; lra. }
  split; [exact A|]. rewrite A.
  transitivity (2 * PI * (4 * (PI * PI) * (o_a o * o_a o * o_a o)) / (o_period o * o_period o * o_m_total o) * (o_m_planet o * o_sin_incl o * (o_m_planet o * o_sin_incl o) * (o_m_planet o * o_sin_incl o))).
  { field. repeat split; lra. }
  rewrite <- (of_kepler3 _ _ _ F). field. split; lra.
Qed.
End S.

Lemma rv_mean : forall k (x : kargs R) o, consts_ok k -> kep_init k x = Ok o -> physical o ->
  let rv K u t := get_radial_velocity k o (kep_warp o) t K u in
  let z s := vz (pos k o Star s None false) in
  (forall K u, exists v, (forall t, rv (Some K) u t = Ok (v t)) /\ forall T, is_RInt v T (T + o_period o) 0) /\
  (forall u c, uto (u_Rsun_per_day k) u = Ok c -> exists v, (forall t, rv None (Some u) t = Ok (v t)) /\
     (forall a b, is_RInt v a b (- c * (z b - z a))) /\ forall T, is_RInt v T (T + o_period o) 0).
Proof.
  intros k x o kok H ph rv z. split.
  - intros K u. exists (rvf o K). split; [intro t; apply (rvf_is k x o kok H ph)|]. intro T. apply (mean_zero k x o kok H ph).
  - intros u c Hu. exists (rvf o (c * (o_K0 o * o_m_planet o * o_sin_incl o))).
    assert (A : forall t, rv None (Some u) t = Ok (rvf o (c * (o_K0 o * o_m_planet o * o_sin_incl o)) t)).
    { intro t. unfold rv. rewrite (rv_K_form k o t u c Hu). apply (rvf_is k x o kok H ph). }
    split; [exact A|]. split; [|intro T; apply (mean_zero k x o kok H ph)].
    intros a b.
    replace (- c * (z b - z a)) with (minus ((fun s => - c * z s) b) ((fun s => - c * z s) a)) by (unfold minus, plus, opp; simpl; ring).
    apply (is_RInt_derive (fun s => - c * z s)); intros s _; [|apply (rvf_cont o ph)].
    destruct (radial_velocity_law k x o s kok H ph) as (D & E & _). destruct (E u c Hu) as [E1 _]. fold z in D, E1. fold (rv None (Some u) s) in E1. rewrite A in E1. apply Ok_inj in E1. rewrite E1.
    apply is_derive_scal. apply Derive_correct, D.
Qed.
Lemma rv_extremes : forall k (x : kargs R) o, consts_ok k -> kep_init k x = Ok o -> physical o ->
  let rv K u t := get_radial_velocity k o (kep_warp o) t K u in
  forall K u T, exists t1 t2, T <= t1 < T + o_period o /\ T <= t2 < T + o_period o /\
    rv (Some K) u t1 = Ok (K * (ecc_of o * cosw_of o + 1)) /\ rv (Some K) u t2 = Ok (K * (ecc_of o * cosw_of o - 1)) /\
    (0 <= K -> forall t v, rv (Some K) u t = Ok v -> K * (ecc_of o * cosw_of o - 1) <= v <= K * (ecc_of o * cosw_of o + 1)).
Proof.
  intros k x o kok H ph rv K u T. destruct (extremes k x o kok H ph K T) as (t1 & t2 & B1 & B2 & E1 & E2).
  exists t1, t2. unfold rv. rewrite !(rvf_is k x o kok H ph), E1, E2. repeat (split; [first [assumption|reflexivity]|]).
  intros HK t v Hv. destruct (radial_velocity_law k x o t kok H ph) as (_ & _ & _ & _ & L). apply (L K u v HK). exact Hv.
Qed.
Lemma rv_amplitude : forall k (x : kargs R) o, consts_ok k -> kep_init k x = Ok o -> physical o ->
  let rv K u t := get_radial_velocity k o (kep_warp o) t K u in
  exists K, (forall u c t, uto (u_Rsun_per_day k) u = Ok c -> rv None (Some u) t = rv (Some (c * K)) None t) /\
    let q := sqrt (1 - ecc_of o * ecc_of o) in
    K = 2 * PI / o_period o * (o_a o * o_m_planet o / o_m_total o) * sin (o_incl o) / q /\
    o_period o * (K * q) ^ 3 * o_m_total o ^ 2 = 2 * PI * G_grav k * (o_m_planet o * sin (o_incl o)) ^ 3.
Proof.
  intros k x o kok H ph rv. exists (o_K0 o * o_m_planet o * o_sin_incl o). split.
  - intros u c t Hu. apply (rv_K_form k o t u c Hu).
  - destruct (semi_amplitude k x o kok H ph) as [A B]. cbv zeta in A, B. assert (F := kep_init_facts k kok x o H ph).
    rewrite <- (of_sini _ _ _ F). cbv zeta. split; [exact A|].
    transitivity (o_period o * (o_K0 o * o_m_planet o * o_sin_incl o * sqrt (1 - ecc_of o * ecc_of o) * (o_K0 o * o_m_planet o * o_sin_incl o * sqrt (1 - ecc_of o * ecc_of o)) * (o_K0 o * o_m_planet o * o_sin_incl o * sqrt (1 - ecc_of o * ecc_of o))) * (o_m_total o * o_m_total o)); [ring|].
    rewrite B. ring.
Qed.
