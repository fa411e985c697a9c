(** * Systems of the same density *)
From Coq Require Import Reals List Bool Arith ZArith Lra Lia Psatz.
From Verif Require Import Num CoreOps Inst CoreFlux M_units M_kepler M_fin M_tensor M_simple M_ttv M_limbdark M_secondary
  Spec_orbit Spec_params Spec_array Spec_light Spec_secondary Spec_delay Spec_sym
  L_real L_kepop L_orbit L_params3 L_fl L_fl2 L_fl3 L_tens L_shape L_shapeS L_transit3 L_transit4 L_array L_motion L_pmotion
  L_reshape L_light1 L_light2 L_light3 L_light4 L_light7 L_light8 L_second L_second2 L_pmotion3 L_delay L_delay2 L_sym L_sym2 L_node L_mirror.
Import ListNotations.
Local Notation length := List.length.
Open Scope R_scope.

Lemma npw_R (x : R) n : npw x n = x ^ n.
Proof. induction n as [|[|n] IH]; [reflexivity|cbn; ring|]. change (x * npw x (S n) = x * x ^ S n). rewrite IH. reflexivity. Qed.
Section A.
Variables (k : consts) (s : R).
Hypothesis s0 : 0 < s.
Notation s3 := (s ^ 3).
Lemma s3_pos : 0 < s3. Proof. apply pow_lt, s0. Qed.
Lemma to_unit_scale (c : R) q u : to_unit {| qv := qv q * c; qu := qu q |} u = rmap (fun v => v * c) (to_unit q u).
Proof. unfold to_unit. cbn [qu qv]. destruct (qu q) as [w|]; [|reflexivity]. destruct (uto w u); cbn [rmap]; [|reflexivity]. f_equal. cbn. ring. Qed.
Lemma opt_scale c q u : opt_to_unit (larger c q) u = rmap (option_map (fun v => v * c)) (opt_to_unit q u).
Proof. destruct q as [q|]; [|reflexivity]. cbn [larger option_map opt_to_unit]. rewrite to_unit_scale. destruct (to_unit q u); reflexivity. Qed.
Lemma with_scale c q u : with_unit {| qv := qv q * c; qu := qu q |} u = rmap (fun q => {| qv := qv q * c; qu := qu q |}) (with_unit q u).
Proof. unfold with_unit. cbn [qu]. destruct (qu q); reflexivity. Qed.
Lemma cbrt_scale y : Rpowr (y * s3) (1 / 3) = Rpowr y (1 / 3) * s.
Proof.
  assert (P := s3_pos). unfold Rpowr. destruct (Rlt_dec 0 (y * s3)) as [H|H], (Rlt_dec 0 y) as [H'|H']; try nra.
  - rewrite <- Rpower_mult_distr by assumption. f_equal. rewrite <- (Rpower_pow 3 s s0), Rpower_mult. replace (INR 3 * (1 / 3)) with 1 by (cbn; field). apply Rpower_1, s0.
  - destruct (Req_EM_T (1 / 3) 0); lra.
Qed.
Lemma kepler_scale y z : Rpowr (y * s) (3 / 2) / sqrt (z * s3) = Rpowr y (3 / 2) / sqrt z.
Proof.
  assert (P := s3_pos). assert (Q : sqrt (z * s3) = sqrt z * sqrt s3).
  { destruct (Rle_dec 0 z) as [H|H]; [apply sqrt_mult; lra|]. rewrite (sqrt_neg_0 z) by lra. rewrite Rmult_0_l. apply sqrt_neg_0. nra. }
  assert (S : Rpower s (3 / 2) = sqrt s3).
  { rewrite <- Rpower_sqrt by exact P. rewrite <- (Rpower_pow 3 s s0), Rpower_mult. f_equal. cbn. field. }
  assert (S1 : sqrt s3 <> 0) by (assert (H := sqrt_lt_R0 s3 P); lra).
  rewrite Q. unfold Rdiv. rewrite Rinv_mult.
  assert (E : Rpowr (y * s) (3 * / 2) = Rpowr y (3 * / 2) * sqrt s3).
  { unfold Rpowr. destruct (Rlt_dec 0 (y * s)) as [H|H], (Rlt_dec 0 y) as [H'|H']; try nra.
    - rewrite <- Rpower_mult_distr by assumption. f_equal. exact S.
    - destruct (Req_EM_T (3 * / 2) 0); lra. }
  rewrite E. set (i := / sqrt z). field. exact S1.
Qed.

Definition sc6 (q : R * R * R * R * R * R) : R * R * R * R * R * R :=
  let '(a, p, rho, rs, ms, mp) := q in (a * s, p, rho, rs * s, ms * s3, mp * s3).
Definition sc3 (q : R * R * R) : R * R * R := let '(rho, rs, ms) := q in (rho, rs * s, ms * s3).
Lemma none_larger c q : is_none (larger c q) = is_none q.
Proof. destruct q; reflexivity. Qed.
Lemma ci_scale a p rho r m mp : r <> None \/ m <> None ->
  consistent_inputs k (larger s a) p rho (larger s r) (larger s3 m) (larger s3 mp) = rmap sc6 (consistent_inputs k a p rho r m mp).
Proof.
  intro G. assert (Gn : is_none r && is_none m = false) by (destruct r, m; try reflexivity; destruct G as [G|G]; contradiction).
  assert (sn : s <> 0) by lra. assert (s3n : s3 <> 0) by (assert (H := s3_pos); lra).
  unfold consistent_inputs. cbv zeta. rewrite !none_larger, Gn. cbv iota. cbn [andb]. rewrite !none_larger. destruct (is_none a && is_none p) eqn:Eap; [reflexivity|].
  rewrite !opt_scale. destruct (opt_to_unit mp (u_M_sun k)) as [mp0|]; cbn [rmap rbind]; [|reflexivity].
  destruct (opt_to_unit a (u_R_sun k)) as [av|] eqn:Ea; cbn [rmap rbind]; [|reflexivity].
  destruct (opt_to_unit p (u_day k)) as [pv|] eqn:Ep; cbn [rmap rbind]; [|reflexivity].
  assert (MP : match option_map (fun v : R => v * s3) mp0, option_map (fun v : R => v * s) av, pv with
            | Some m, _, _ => m | None, Some x, _ => nzl x | None, None, Some p => nzl p | None, None, None => (#0)%num end
     = match mp0, av, pv with Some m, _, _ => m | None, Some x, _ => nzl x | None, None, Some p => nzl p | None, None, None => (#0)%num end * s3).
  { destruct mp0, av, pv; cbn; ring. }
  rewrite MP. clear MP. set (mv := match mp0, av, pv with Some m, _, _ => m | None, Some x, _ => nzl x | None, None, Some p => nzl p | None, None, None => (#0)%num end). clearbody mv.
  match goal with |- rbind ?X ?F = rmap sc6 (rbind ?Y ?H) => assert (ST : X = rmap sc3 Y) end.
  { destruct av as [av|], pv as [pv|]; cbn [option_map].
    2,3,4: (destruct (negb (Nat.eqb _ _)) eqn:En; [reflexivity|]; apply negb_false_iff, Nat.eqb_eq in En;
      match goal with |- rbind ?X _ = _ => assert (Rn : match X with Ok z => is_none z = is_none rho | Err _ => True end);
        [destruct rho as [q|]; [destruct (qu q); [destruct (to_unit q _); exact I || reflexivity|reflexivity]|reflexivity]|destruct X as [rh|]] end; cbn [rbind rmap]; [|reflexivity];
      assert (Rr : match opt_to_unit r (u_R_sun k) with Ok z => is_none z = is_none r | Err _ => True end) by (destruct r as [q|]; [cbn; destruct (to_unit q _); exact I || reflexivity|reflexivity]);
      assert (Rm : match opt_to_unit m (u_M_sun k) with Ok z => is_none z = is_none m | Err _ => True end) by (destruct m as [q|]; [cbn; destruct (to_unit q _); exact I || reflexivity|reflexivity]);
      destruct (opt_to_unit r _) as [rv|]; cbn [rbind rmap]; [|reflexivity]; destruct (opt_to_unit m _) as [ms|]; cbn [rbind rmap]; [|reflexivity];
      rewrite <- Rn, <- Rr, <- Rm in En; clear Rn Rr Rm; destruct rh as [rh|], rv as [rv|], ms as [ms|]; cbn in En; try discriminate En; clear En; cbn [option_map sc3 rmap]; f_equal; 
      apply f_equal2; try reflexivity; try (apply (f_equal2 pair); try reflexivity)).
    1:{ destruct (negb (is_none rho) || negb (is_none m)) eqn:Em; [reflexivity|]. destruct r as [r|]; cbn [larger option_map].
      2:{ destruct G as [G|G]; [contradiction|]. destruct m; [|contradiction]. rewrite orb_true_r in Em. discriminate Em. }
      rewrite to_unit_scale. destruct (to_unit r (u_R_sun k)) as [rv|]; cbn [rmap rbind]; [|reflexivity]. cbn [sc3]. f_equal.
      rewrite !npw_R. apply (f_equal2 pair); [apply (f_equal2 pair); [|reflexivity]|].
      - change ((4 * PI * PI * (av * s) ^ 3 / (G_grav k * pv ^ 2) - mv * s3) / (4 * PI * (rv * s) ^ 3 / 3) = (4 * PI * PI * av ^ 3 / (G_grav k * pv ^ 2) - mv) / (4 * PI * rv ^ 3 / 3)).
        unfold Rdiv. rewrite (Rpow_mult_distr rv s 3), !Rinv_mult. set (i := / rv ^ 3). set (j := / G_grav k). set (l := / pv ^ 2). field. split; first [exact sn | apply PI_neq0].
      - change (4 * PI * PI * (av * s) ^ 3 / (G_grav k * pv ^ 2) - mv * s3 = (4 * PI * PI * av ^ 3 / (G_grav k * pv ^ 2) - mv) * s3). unfold Rdiv. set (i := / (G_grav k * pv ^ 2)). ring. }
    all: rewrite ?npw_R; first [ match goal with |- npowr _ _ = _ => idtac end; change (Rpowr (3 * (ms * s3) / (4 * PI * rh)) (1 / 3) = Rpowr (3 * ms / (4 * PI * rh)) (1 / 3) * s);
          rewrite <- cbrt_scale; f_equal; unfold Rdiv; ring
        | match goal with |- _ = (_ / (_ * _))%num => idtac end; change (3 * (ms * s3) / (4 * PI * (rv * s) ^ 3) = 3 * ms / (4 * PI * rv ^ 3)); unfold Rdiv; rewrite (Rpow_mult_distr rv s 3), !Rinv_mult; set (i := / rv ^ 3); set (l := / PI); field; exact sn
        | change (4 * PI * (rv * s) ^ 3 * rh / 3 = 4 * PI * rv ^ 3 * rh / 3 * s3); field ]. }
  rewrite ST. clear ST. match goal with |- rbind (rmap sc3 ?Y) _ = _ => destruct Y as [[[rh rv] ms]|] end; cbn [rmap rbind sc3]; [|reflexivity].
  destruct av as [av|], pv as [pv|]; cbn [option_map rmap sc6]; try reflexivity.
  - f_equal. rewrite ?npw_R. match goal with |- (_, ?p, _, _, _, _) = (_, ?q, _, _, _, _) => assert (E : p = q); [|rewrite E; reflexivity] end.
    change (2 * PI * Rpowr (av * s) (3 / 2) / sqrt (G_grav k * (ms * s3 + mv * s3)) = 2 * PI * Rpowr av (3 / 2) / sqrt (G_grav k * (ms + mv))).
    replace (G_grav k * (ms * s3 + mv * s3)) with (G_grav k * (ms + mv) * s3) by ring. assert (Q := kepler_scale av (G_grav k * (ms + mv))). unfold Rdiv in *. rewrite !(Rmult_assoc (2 * PI)). rewrite Q. reflexivity.
  - f_equal. rewrite ?npw_R. match goal with |- (?p, _, _, _, _, _) = (?q, _, _, _, _, _) => assert (E : p = q); [|rewrite E; reflexivity] end.
    change (Rpowr (G_grav k * (ms * s3 + mv * s3) * pv ^ 2 / (4 * PI ^ 2)) (1 / 3) = Rpowr (G_grav k * (ms + mv) * pv ^ 2 / (4 * PI ^ 2)) (1 / 3) * s).
    rewrite <- cbrt_scale. f_equal. unfold Rdiv. ring.
Qed.
Lemma units_scale x : kep_units (scaled s x) = rmap (fun q => (larger s3 (fst q), snd q)) (kep_units x).
Proof.
  unfold kep_units. cbn [scaled ka_m_planet_units ka_m_planet ka_rho_star_units ka_rho_star].
  match goal with |- rbind ?X _ = rmap _ (rbind ?Y _) => assert (E : X = rmap (larger s3) Y) end.
  { destruct (ka_m_planet_units x) as [u|]; [|reflexivity]. destruct (ka_m_planet x) as [q|]; [|reflexivity]. cbn [larger option_map]. rewrite with_scale. destruct (with_unit q u); reflexivity. }
  rewrite E. match goal with |- rbind (rmap _ ?Y) _ = _ => destruct Y end; cbn [rmap rbind]; [|reflexivity].
  match goal with |- rbind ?Y _ = _ => destruct Y end; reflexivity.
Qed.
Lemma duration_scale x : sized x -> kep_duration (scaled s x) = rmap (fun q => let '(a, r, d, g) := q in (larger s a, larger s r, d, g)) (kep_duration x).
Proof.
  intro G. unfold kep_duration. cbn [scaled ka_ecc ka_duration ka_r_star ka_b ka_period ka_ror ka_a].
  destruct (ka_ecc x), (ka_duration x) as [dur|] eqn:Ed; try reflexivity. destruct (ka_b x); [|reflexivity]. destruct (ka_period x); [|reflexivity].
  destruct (get_aor _ _ _ _) as [aor g]. cbn [rmap]. destruct G as [G|[_ G]]; [|congruence]. destruct (ka_r_star x) as [q0|]; [|contradiction]. cbn [larger option_map qv]. f_equal. f_equal. f_equal. f_equal.
  cbn. unfold plain. f_equal. f_equal. ring.
Qed.
Definition sc_jac (j : jacd R) : jacd R := {| j_a := j_a j * s; j_a_star := j_a_star j * s; j_a_planet := j_a_planet j * s; j_rho := j_rho j |}.
Definition set_scale (o : orbit R) : orbit R :=
  {| o_a := o_a o * s; o_period := o_period o; o_rho_star := o_rho_star o; o_r_star := o_r_star o * s;
     o_m_star := o_m_star o * s3; o_m_planet := o_m_planet o * s3; o_m_total := o_m_total o * s3;
     o_n := o_n o; o_a_star := o_a_star o * s; o_a_planet := o_a_planet o * s; o_K0 := o_K0 o / (s * s);
     o_Omega := o_Omega o; o_ecc := o_ecc o; o_M0 := o_M0 o; o_dcosidb := o_dcosidb o;
     o_b := o_b o; o_cos_incl := o_cos_incl o; o_incl := o_incl o; o_sin_incl := o_sin_incl o;
     o_t0 := o_t0 o; o_tper := o_tper o; o_tref := o_tref o; o_jac := option_map sc_jac (o_jac o); o_duration := o_duration o |}.
Lemma ecc_b_scale d dv f p ap rs : ecc_duration_b d dv f p (ap * s) (rs * s) = ecc_duration_b d dv f p ap rs.
Proof.
  unfold ecc_duration_b. assert (E : ((ap * s)%R / (rs * s)%R)%num = (ap / rs)%num).
  { cbn. unfold Rdiv. rewrite Rinv_mult. set (i := / rs). field. lra. }
  rewrite E. reflexivity.
Qed.
Lemma incl_scale x dur ed f dc a p ap rs : kep_incl k (scaled s x) dur ed f dc (a * s) p (ap * s) (rs * s) = kep_incl k x dur ed f dc a p ap rs.
Proof.
  unfold kep_incl. cbn [scaled ka_b ka_incl]. destruct (ka_b x); [reflexivity|]. destruct (ka_incl x); [reflexivity|]. destruct dur as [q|]; [|reflexivity].
  destruct ed as [d|]; [|reflexivity]. destruct (to_unit q (u_day k)); [|reflexivity]. cbn [rbind]. rewrite ecc_b_scale. reflexivity.
Qed.
Lemma scale_init x : sized x -> kep_init k (scaled s x) = rmap set_scale (kep_init k x).
Proof.
  intro G. unfold kep_init. rewrite units_scale, (duration_scale x G). change (kep_omega (scaled s x)) with (kep_omega x). change (ka_period (scaled s x)) with (ka_period x).
  change (ka_m_star (scaled s x)) with (larger s3 (ka_m_star x)). change (ka_Omega (scaled s x)) with (ka_Omega x).
  destruct (kep_units x) as [[mp rho]|]; cbn [rbind rmap fst snd]; [|reflexivity].
  destruct (kep_duration x) as [[[[a rs] dur] da]|] eqn:ED; cbn [rbind rmap]; [|reflexivity].
  assert (G' : rs <> None \/ ka_m_star x <> None).
  { unfold kep_duration in ED. destruct G as [G|[G _]]; [left|right; exact G]. destruct (ka_ecc x), (ka_duration x); try (apply Ok_inj in ED; congruence).
    destruct (ka_b x); [|discriminate ED]. destruct (ka_period x); [|discriminate ED]. destruct (get_aor _ _ _ _). apply Ok_inj in ED. congruence. }
  rewrite (ci_scale a (ka_period x) rho rs (ka_m_star x) mp G').
  destruct (consistent_inputs k a (ka_period x) rho rs (ka_m_star x) mp) as [[[[[[a' p] rho'] rs'] ms] mp']|]; cbn [rbind rmap sc6]; [|reflexivity].
  destruct (kep_omega x) as [ed|]; cbn [rbind rmap]; [|reflexivity].
  assert (sn : s <> 0) by lra.
  assert (EM : ((ms * s3)%R + (mp' * s3)%R)%num = (ms + mp') * s3) by (cbn; ring).
  assert (EP : forall z, ((- (z * s)%R) * (ms * s3)%R / ((ms * s3)%R + (mp' * s3)%R))%num = ((- z) * ms / (ms + mp'))%num * s).
  { intro z. rewrite EM. cbn. unfold Rdiv. rewrite !Rinv_mult. set (i := / (ms + mp')). field. exact sn. }
  assert (ES : forall z, ((z * s)%R * (mp' * s3)%R / ((ms * s3)%R + (mp' * s3)%R))%num = (z * mp' / (ms + mp'))%num * s).
  { intro z. rewrite EM. cbn. unfold Rdiv. rewrite !Rinv_mult. set (i := / (ms + mp')). field. exact sn. }
  assert (EK : forall n, (n * (a' * s)%R / ((ms * s3)%R + (mp' * s3)%R))%num = (n * a' / (ms + mp'))%num / (s * s)).
  { intro z. rewrite EM. cbn. unfold Rdiv. rewrite !Rinv_mult. set (i := / (ms + mp')). field. exact sn. }
  assert (ED' : forall f, (f * (rs' * s)%R / (a' * s)%R)%num = (f * rs' / a')%num).
  { intro f. cbn. unfold Rdiv. rewrite Rinv_mult. set (i := / a'). field. exact sn. }
  assert (ER : ((a' * s)%R / (rs' * s)%R)%num = (a' / rs')%num) by (cbn; unfold Rdiv; rewrite Rinv_mult; set (i := / rs'); field; exact sn).
  cbv zeta. rewrite EP, ES, ED', ER, EK. rewrite incl_scale.
  match goal with |- context [kep_incl k x ?a ?b ?c ?d ?e ?f ?g ?h] => destruct (kep_incl k x a b c d e f g h) as [[[[bb ci] ii] du]|] end; cbn [rbind rmap]; [|reflexivity].
  match goal with |- context [kep_times (scaled s x) ?a ?b ?c] => change (kep_times (scaled s x) a b c) with (kep_times x a b c);
    destruct (kep_times x a b c) as [[t0 tp]|] end; cbn [rbind rmap]; [|reflexivity].
  unfold set_scale. cbn [o_a o_period o_rho_star o_r_star o_m_star o_m_planet o_m_total o_n o_a_star o_a_planet o_K0 o_Omega o_ecc o_M0 o_dcosidb o_b o_cos_incl o_incl o_sin_incl o_t0 o_tper o_tref o_jac o_duration].
  f_equal.
  assert (EJ : forall g, ((rs' * s)%R * g)%num = (rs' * g)%num * s) by (intro g; cbn; ring).
  match goal with |- context [option_map sc_jac ?J] => match goal with |- {| o_a := _; o_period := _; o_rho_star := _; o_r_star := _; o_m_star := _; o_m_planet := _; o_m_total := _; o_n := _; o_a_star := _; o_a_planet := _; o_K0 := _; o_Omega := _; o_ecc := _; o_M0 := _; o_dcosidb := _; o_b := _; o_cos_incl := _; o_incl := _; o_sin_incl := _; o_t0 := _; o_tper := _; o_tref := _; o_jac := ?J1; o_duration := _ |} = _ => assert (E1 : J1 = option_map sc_jac J) end end.
  { destruct da as [g|]; [|reflexivity]. cbn [option_map]. rewrite EJ, EP, ES. reflexivity. }
  rewrite E1, EM. clear E1.
  match goal with |- {| o_a := _; o_period := _; o_rho_star := _; o_r_star := _; o_m_star := _; o_m_planet := _; o_m_total := _; o_n := _; o_a_star := _; o_a_planet := _; o_K0 := ?K1; o_Omega := _; o_ecc := _; o_M0 := _; o_dcosidb := _; o_b := _; o_cos_incl := _; o_incl := _; o_sin_incl := _; o_t0 := _; o_tper := _; o_tref := _; o_jac := _; o_duration := _ |} = 
    {| o_a := _; o_period := _; o_rho_star := _; o_r_star := _; o_m_star := _; o_m_planet := _; o_m_total := _; o_n := _; o_a_star := _; o_a_planet := _; o_K0 := ?K2; o_Omega := _; o_ecc := _; o_M0 := _; o_dcosidb := _; o_b := _; o_cos_incl := _; o_incl := _; o_sin_incl := _; o_t0 := _; o_tper := _; o_tref := _; o_jac := _; o_duration := _ |} => assert (E2 : K1 = K2) end.
  { destruct ed as [d|]; [|reflexivity]. cbn. unfold Rdiv. rewrite !Rinv_mult. ring. }
  rewrite E2. reflexivity.
Qed.
End A.

(** ** motion *)
Lemma rotate_times s (o : orbit R) x y : rotate_vector o (s * x) (s * y) = times s (rotate_vector o x y).
Proof. unfold rotate_vector, times, vx, vy, vz. destruct (o_ecc o), (o_Omega o); cbn; (apply f_equal2; [apply f_equal2|]; ring). Qed.
Lemma rotate_times' s (o : orbit R) x y x' y' : x' = s * x -> y' = s * y -> rotate_vector o x' y' = times s (rotate_vector o x y).
Proof. intros -> ->. apply rotate_times. Qed.
Section R.
Variables (k : consts) (s : R) (o : orbit R) (wp : bool -> R -> R).
Hypothesis s0 : 0 < s.
Notation o' := (set_scale s o).
Lemma scale_nodelay a a' t par pad : a' = a * s -> position_nodelay k o' wp a' t par pad = times s (position_nodelay k o wp a t par pad).
Proof.
  intros ->. unfold position_nodelay. change (true_anomaly o' wp pad t) with (true_anomaly o wp pad t). destruct (true_anomaly o wp pad t) as [sf cf].
  change (rotate_vector o') with (rotate_vector o). change (o_ecc o') with (o_ecc o). apply rotate_times'; destruct (o_ecc o), par; cbn; unfold Rdiv; ring.
Qed.
Lemma scale_velocity m m' t : m' = m * s ^ 3 -> get_velocity o' wp m' t = times s (get_velocity o wp m t).
Proof.
  intros ->. unfold get_velocity. change (true_anomaly o' wp true t) with (true_anomaly o wp true t). destruct (true_anomaly o wp true t) as [sf cf].
  change (rotate_vector o') with (rotate_vector o). change (o_ecc o') with (o_ecc o). change (o_K0 o') with (o_K0 o / (s * s)). destruct (o_ecc o); apply rotate_times'; cbn; field; lra.
Qed.
Lemma scale_acceleration a a' m m' t : a' = a * s -> m' = m * s ^ 3 -> get_acceleration o' wp a' m' t = times s (get_acceleration o wp a m t).
Proof.
  intros -> ->. unfold get_acceleration. change (true_anomaly o' wp true t) with (true_anomaly o wp true t). destruct (true_anomaly o wp true t) as [sf cf].
  change (rotate_vector o') with (rotate_vector o). change (o_ecc o') with (o_ecc o). change (o_K0 o') with (o_K0 o / (s * s)).
  destruct (o_ecc o) as [d|]; apply rotate_times'; cbn; unfold Rdiv; rewrite !Rinv_mult; set (i := / a); try set (j := / (e_ecc d * e_ecc d - 1)); field; lra.
Qed.
Lemma scale_rv t u : get_radial_velocity k o' wp t None u = rmap (fun v => s * v) (get_radial_velocity k o wp t None u).
Proof.
  unfold get_radial_velocity. destruct (uto _ _) as [c|]; cbn [rbind]; [|reflexivity].
  unfold get_star_velocity. rewrite !sqz_R, (scale_velocity (o_m_planet o)) by reflexivity. destruct (get_velocity o wp (o_m_planet o) t) as [[x y] z]. cbn. f_equal. ring.
Qed.
End R.
Lemma scale_motion : forall k s (x : kargs R) o o', 0 < s -> sized x -> kep_init k x = Ok o -> kep_init k (scaled s x) = Ok o' ->
  forall t, (forall b par, pos k o' b t par false = times s (pos k o b t par false)) /\
    (forall b, vel o' b t = times s (vel o b t)) /\ (forall b, acc o' b t = times s (acc o b t)) /\
    (forall u, get_radial_velocity k o' (kep_warp o') t None u = rmap (fun v => s * v) (get_radial_velocity k o (kep_warp o) t None u)) /\
    (forall K u, get_radial_velocity k o' (kep_warp o') t (Some K) u = get_radial_velocity k o (kep_warp o) t (Some K) u).
Proof.
  intros k s x o o' s0 G H H' t. rewrite (scale_init k s s0 x G), H in H'. cbn [rmap] in H'. apply Ok_inj in H'. subst o'.
  assert (Wp : kep_warp (set_scale s o) = kep_warp o) by reflexivity.
  split; [|split; [|split; [|split]]].
  - intros b par. unfold pos, get_planet_position, get_star_position, get_relative_position, get_position. rewrite Wp.
    destruct b; rewrite !sqz_R; apply (scale_nodelay k s o); cbn; ring.
  - intro b. unfold vel, get_planet_velocity, get_star_velocity, get_relative_velocity. rewrite Wp. destruct b; rewrite !sqz_R; apply (scale_velocity s o _ s0); cbn; ring.
  - intro b. unfold acc, get_planet_acceleration, get_star_acceleration, get_relative_acceleration. rewrite Wp. destruct b; rewrite !sqz_R; apply (scale_acceleration s o _ s0); cbn; ring.
  - intros u. rewrite Wp. apply (scale_rv k s o _ s0).
  - intros K u. reflexivity.
Qed.
Lemma scale_elements : forall k s (x : kargs R) o o', 0 < s -> sized x -> kep_init k x = Ok o -> kep_init k (scaled s x) = Ok o' ->
  o_a o' = o_a o * s /\ o_r_star o' = o_r_star o * s /\ o_m_star o' = o_m_star o * s ^ 3 /\ o_m_planet o' = o_m_planet o * s ^ 3 /\
  o_period o' = o_period o /\ o_rho_star o' = o_rho_star o /\ o_b o' = o_b o /\ o_incl o' = o_incl o /\ o_t0 o' = o_t0 o /\ o_tper o' = o_tper o.
Proof. intros k s x o o' s0 G H H'. rewrite (scale_init k s s0 x G), H in H'. cbn [rmap] in H'. apply Ok_inj in H'. subst o'. repeat split. Qed.
Lemma scale_errors : forall k s (x : kargs R), 0 < s -> sized x -> (forall o, kep_init k x = Ok o -> exists o', kep_init k (scaled s x) = Ok o') /\ (forall e, kep_init k x = Err e -> kep_init k (scaled s x) = Err e).
Proof. intros k s x s0 G. split; intros o H; rewrite (scale_init k s s0 x G), H; [eexists|]; reflexivity. Qed.

(** ** systems *)
Lemma times_flux u1 u2 s P rp rst : 0 < s -> 0 < rst -> flux_at u1 u2 (times s P) (rp * s) (rst * s) = flux_at u1 u2 P rp rst.
Proof.
  intros s0 r0. unfold flux_at, times, vx, vy, vz. cbn [fst snd]. set (X := fst (fst P)). set (Y := snd (fst P)). set (Z := snd P).
  replace (s * X * (s * X) + s * Y * (s * Y)) with (s * s * (X * X + Y * Y)) by ring. rewrite sqrt_mult by nra. rewrite sqrt_square by lra.
  f_equal; field; lra.
Qed.
Lemma scale_phys s o : 0 < s -> physical o -> physical (set_scale s o).
Proof.
  intros s0 []. assert (P := s3_pos s s0). constructor; try assumption; cbn [set_scale o_a o_r_star o_m_star o_m_planet]; nra.
Qed.
Lemma scale_flip k s o r : 0 < s -> flip k (set_scale s o) (r * s) = rmap (set_scale s) (flip k o r).
Proof.
  intro s0. assert (E : flip_args (set_scale s o) (r * s) = scaled s (flip_args o r)).
  { unfold flip_args. change (o_ecc (set_scale s o)) with (o_ecc o). destruct (o_ecc o); reflexivity. }
  unfold flip. rewrite E. apply scale_init; [exact s0|]. left. unfold flip_args. destruct (o_ecc o); discriminate.
Qed.
Lemma scale_system k s n x xs os x' : consts_ok k -> 0 < s -> (forall j, (j < n)%nat -> sized (xs j)) -> system k n x xs os -> batch n x' (fun j => scaled s (xs j)) ->
  system k n x' (fun j => scaled s (xs j)) (fun j => set_scale s (os j)) /\ exists o', kep_init k x' = Ok o'.
Proof.
  intros kok s0 G [Hn Ha Hat Hi Hph Hd] [B1 B2].
  assert (S' : system k n x' (fun j => scaled s (xs j)) (fun j => set_scale s (os j))).
  { constructor; try assumption.
    - intros j Hj. rewrite (scale_init k s s0 _ (G j Hj)), (Hi j Hj). reflexivity.
    - intros j Hj. apply scale_phys, Hph, Hj. exact s0. }
  split; [exact S'|]. destruct (system_orbit k n x' _ _ kok S') as (o' & H & _). exists o'. exact H.
Qed.
Lemma fdiv_scale s x y : 0 < s -> fdiv (Fin (x * s)) (Fin (y * s)) = fdiv (Fin x) (Fin y).
Proof.
  intro s0. cbn. assert (Z : forall z, Reqb (z * s) 0 = Reqb z 0).
  { intro z. unfold Reqb. destruct (Req_EM_T (z * s) 0), (Req_EM_T z 0); try reflexivity; exfalso; [apply Rmult_integral in e; destruct e; lra|subst; lra]. }
  rewrite !Z. destruct (Reqb y 0) eqn:Ey.
  - destruct (Reqb x 0); [reflexivity|]. f_equal. unfold rpos, Rltb. destruct (Rlt_dec 0 (x * s)), (Rlt_dec 0 x); try reflexivity; exfalso; nra.
  - f_equal. unfold Reqb in Ey. destruct (Req_EM_T y 0); [discriminate Ey|]. field. split; [assumption|lra].
Qed.
Lemma scale_mask s o cp t r e : 0 < s -> (o_ecc o = None \/ scale_free_solver s cp) -> transit_mask (fin_orbit o) (kep_warp (fin_orbit o)) cp (Fin t) (Fin r) e
  = transit_mask (fin_orbit (set_scale s o)) (kep_warp (fin_orbit (set_scale s o))) cp (Fin t) (Fin (r * s)) e.
Proof.
  intros s0 H. unfold transit_mask. change (since_transit (fin_orbit (set_scale s o)) (kep_warp (fin_orbit (set_scale s o))) (Fin t)) with (since_transit (fin_orbit o) (kep_warp (fin_orbit o)) (Fin t)).
  assert (E : transit_window (fin_orbit (set_scale s o)) cp (Fin (r * s)) = transit_window (fin_orbit o) cp (Fin r)).
  { unfold transit_window. change (o_ecc (fin_orbit (set_scale s o))) with (o_ecc (fin_orbit o)).
    change (nzl (o_a (fin_orbit (set_scale s o)))) with (Fin 0). change (nzl (o_a (fin_orbit o))) with (Fin 0).
    change (Fin (r * s) + Fin 0)%num with (Fin (r * s + 0)). change (Fin r + Fin 0)%num with (Fin (r + 0)).
    change (o_r_star (fin_orbit (set_scale s o)) + Fin 0)%num with (Fin (o_r_star o * s + 0)). change (o_r_star (fin_orbit o) + Fin 0)%num with (Fin (o_r_star o + 0)). rewrite !Rplus_0_r.
    destruct (o_ecc (fin_orbit o)) as [d|] eqn:Ed.
    - assert (H' : scale_free_solver s cp).
      { destruct H as [H|H]; [|exact H]. change (o_ecc (fin_orbit o)) with (option_map (map_eccd Fin) (o_ecc o)) in Ed. rewrite H in Ed. discriminate Ed. }
      change (o_a (fin_orbit (set_scale s o))) with (Fin (o_a o * s)). change (o_a (fin_orbit o)) with (Fin (o_a o)).
      change (Fin (o_r_star o * s) + Fin (r * s))%num with (Fin (o_r_star o * s + r * s)). change (Fin (o_r_star o) + Fin r)%num with (Fin (o_r_star o + r)).
      rewrite <- Rmult_plus_distr_r. rewrite H'. reflexivity.
    - change (o_a (fin_orbit (set_scale s o)) * o_sin_incl (fin_orbit (set_scale s o)))%num with (Fin (o_a o * s * o_sin_incl o)).
      change (o_a (fin_orbit o) * o_sin_incl (fin_orbit o))%num with (Fin (o_a o * o_sin_incl o)).
      replace (o_a o * s * o_sin_incl o) with (o_a o * o_sin_incl o * s) by ring.
      change (@ndiv fl bool _) with fdiv. rewrite !(fdiv_scale s _ _ s0). reflexivity. }
  rewrite E. reflexivity.
Qed.
Section S.
Variables (k : consts) (s : R) (n N : nat) (os os2 : nat -> orbit R) (ts : nat -> R).
Hypothesis s0 : 0 < s.
Hypothesis E : forall j, (j < n)%nat -> os2 j = set_scale s (os j).
Lemma scale_same_mask rs cp : scale_free_solver s cp \/ (forall j, (j < n)%nat -> o_ecc (os j) = None) -> same_mask n N os os2 ts ts rs (fun j => rs j * s) cp.
Proof. intros H m j e _ Hj. rewrite (E j Hj). apply scale_mask; [exact s0|]. destruct H as [H|H]; [right; exact H|left; apply H, Hj]. Qed.
Lemma scale_same_flux rs u1 u2 : (forall j, (j < n)%nat -> physical (os j)) -> same_flux k n N os os2 ts ts rs (fun j => rs j * s) u1 u2 false.
Proof.
  intros Hp m j y _ Hj. rewrite (E j Hj). change (o_r_star (set_scale s (os j))) with (o_r_star (os j) * s).
  unfold pos, get_relative_position, get_position. rewrite !sqz_R. change (kep_warp (set_scale s (os j))) with (kep_warp (os j)).
  rewrite (scale_nodelay k s (os j) (kep_warp (os j)) (- o_a (os j))%num); [|cbn; ring]. rewrite times_flux; [reflexivity|exact s0|apply (ph_r_star _ (Hp j Hj))].
Qed.
End S.

Lemma scale_in_transit : forall k s n x xs os o x', consts_ok k -> 0 < s -> (forall j, (j < n)%nat -> sized (xs j)) ->
  system k n x xs os -> kep_init k x = Ok o -> batch n x' (fun j => scaled s (xs j)) ->
  exists o', kep_init k x' = Ok o' /\
  forall cp N t ts r r' rs te es ld,
  scale_free_solver s cp \/ (forall j, (j < n)%nat -> ka_ecc (xs j) = None) ->
  is_vector N t -> (forall m, (m < N)%nat -> aget t (at_time m) = Fin (ts m)) ->
  planet_values n r rs -> planet_values n r' (fun j => rs j * s) -> opt_values n te es ->
  oa_in_transit (kep_api k (lift_cp cp) o') t r' te ld = oa_in_transit (kep_api k (lift_cp cp) o) t r te ld.
Proof.
  intros k s n x xs os o x' kok s0 G sys Ho B. destruct (scale_system k s n x xs os x' kok s0 G sys B) as [sys' [o' Ho']]. exists o'. split; [exact Ho'|].
  intros cp N t ts r r' rs te es ld Hc Ht Hts Hr Hr' He. symmetry.
  apply (pair_in_transit k n N x x' xs _ os _ o o' kok sys sys' Ho Ho' t t ts _ Ht Hts Ht Hts rs _ cp r r' te es ld Hr Hr' He). apply scale_same_mask; [exact s0|reflexivity|].
  destruct Hc as [Hc|Hc]; [left; exact Hc|right]. intros j Hj. apply (circ_ecc k n x xs os j sys Hj), Hc, Hj.
Qed.
Lemma scale_light : forall k s n x xs os o x', consts_ok k -> 0 < s -> (forall j, (j < n)%nat -> sized (xs j)) ->
  system k n x xs os -> kep_init k x = Ok o -> batch n x' (fun j => scaled s (xs j)) ->
  exists o', kep_init k x' = Ok o' /\
  forall u1 u2 cp N t ts r r' rs texp es osam order use,
  scale_free_solver s cp \/ (forall j, (j < n)%nat -> ka_ecc (xs j) = None) \/ use = Some false ->
  is_vector N t -> (forall m, (m < N)%nat -> aget t (at_time m) = Fin (ts m)) ->
  disk_flux u1 u2 <> 0 -> elements n r rs -> elements n r' (fun j => rs j * s) -> opt_exposures N texp es -> (use = Some false \/ (exists e, texp = one_texp e)) ->
  same_light n N
    (get_light_curve (ld_init (Fin u1) (Fin u2)) (Some (kep_api k (lift_cp cp) o)) (Some r) (Some t) texp osam order use false)
    (get_light_curve (ld_init (Fin u1) (Fin u2)) (Some (kep_api k (lift_cp cp) o')) (Some r') (Some t) texp osam order use false).
Proof.
  intros k s n x xs os o x' kok s0 G sys Ho B. destruct (scale_system k s n x xs os x' kok s0 G sys B) as [sys' [o' Ho']]. exists o'. split; [exact Ho'|].
  intros u1 u2 cp N t ts r r' rs texp es osam order use Hc Ht Hts Hd Hr Hr' He Hu.
  apply (pair_light k n N x x' xs _ os _ o o' kok sys sys' Ho Ho' t t ts _ Ht Hts Ht Hts rs _ u1 u2 cp r r' texp es osam order use false Hd Hr Hr' He).
  - discriminate.
  - apply scale_same_flux; [exact s0|reflexivity|apply (sy_phys _ _ _ _ _ sys)].
  - destruct Hc as [Hc|[Hc|Hc]]; [| |left; exact Hc]; (destruct Hu as [Hu|Hu]; [left; exact Hu|right; right; split; [exact Hu|]]).
    + apply scale_same_mask; [exact s0|reflexivity|left; exact Hc].
    + apply scale_same_mask; [exact s0|reflexivity|right]. intros j Hj. apply (circ_ecc k n x xs os j sys Hj), Hc, Hj.
Qed.
Lemma scale_secondary : forall k s n x xs os o x', consts_ok k -> 0 < s -> (forall j, (j < n)%nat -> sized (xs j)) ->
  system k n x xs os -> kep_init k x = Ok o -> batch n x' (fun j => scaled s (xs j)) ->
  exists o', kep_init k x' = Ok o' /\
  forall u1 u2 v1 v2 sb ss cp r r' rs N t ts texp es osam order use,
  scale_free_solver s cp \/ (forall j, (j < n)%nat -> ka_ecc (xs j) = None) \/ use = Some false ->
  disk_flux u1 u2 <> 0 -> disk_flux v1 v2 <> 0 -> planet_values n r rs -> planet_values n r' (fun j => rs j * s) -> (forall j, (j < n)%nat -> 0 < rs j) ->
  one_each n r -> one_each n r' -> one_each n (o_r_star o) -> one_each n (o_r_star o') ->
  planet_values n sb ss -> (forall j, (j < n)%nat -> 0 <= ss j) ->
  is_vector N t -> (forall m, (m < N)%nat -> aget t (at_time m) = Fin (ts m)) -> opt_exposures N texp es -> (use = Some false \/ (exists e, texp = one_texp e)) ->
  let S := {| se_primary := ld_init (Fin u1) (Fin u2); se_secondary := ld_init (Fin v1) (Fin v2); se_ratio := sb |} in
  same_light n N (secondary_light_curve k (lift_cp cp) S o r (Some t) texp osam order use false) (secondary_light_curve k (lift_cp cp) S o' r' (Some t) texp osam order use false).
Proof.
  intros k s n x xs os o x' kok s0 G sys Ho B. destruct (scale_system k s n x xs os x' kok s0 G sys B) as [sys' [o' Ho']]. exists o'. split; [exact Ho'|].
  intros u1 u2 v1 v2 sb ss cp r r' rs N t ts texp es osam order use Hc D1 D2 Hr Hr' Hr0 O1 O1' O2 O2' Hs Hs0 Ht Hts He Hu.
  assert (Hc' : use = Some false \/ false = true \/ (exists e, texp = one_texp e) /\ (scale_free_solver s cp \/ (forall j, (j < n)%nat -> o_ecc (os j) = None))).
  { destruct Hc as [Hc|[Hc|Hc]]; [| |left; exact Hc]; (destruct Hu as [Hu|Hu]; [left; exact Hu|right; right; split; [exact Hu|]]).
    - left; exact Hc.
    - right. intros j Hj. apply (circ_ecc k n x xs os j sys Hj), Hc, Hj. }
  assert (Hr0' : forall j, (j < n)%nat -> 0 < rs j * s) by (intros j Hj; assert (H := Hr0 j Hj); nra).
  apply (pair_secondary k n N x x' xs _ os _ o o' kok sys sys' Ho Ho' t t ts ts Ht Hts Ht Hts r r' rs _ Hr Hr' Hr0 Hr0' O1 O1' O2 O2') with (ss := ss) (es := es); try assumption.
  - intros j Hj. cbn [set_scale o_r_star]. assert (P := ph_r_star _ (sy_phys _ _ _ _ _ sys j Hj)). field. lra.
  - discriminate.
  - apply scale_same_flux; [exact s0|reflexivity|apply (sy_phys _ _ _ _ _ sys)].
  - destruct Hc' as [C|[C|[C1 C2]]]; [left; exact C|discriminate C|right; right; split; [exact C1|]]. apply scale_same_mask; [exact s0|reflexivity|exact C2].
  - intros os2 os2' F. assert (E : forall j, (j < n)%nat -> os2' j = set_scale s (os2 j)).
    { intros j Hj. destruct (F j Hj) as [F1 F2]. change (flip k (set_scale s (os j)) (rs j * s) = Ok (os2' j)) in F2. rewrite (scale_flip k s _ _ s0), F1 in F2. apply Ok_inj in F2. symmetry. exact F2. }
    assert (Ph : forall j, (j < n)%nat -> physical (os2 j)).
    { intros j Hj. destruct (F j Hj) as [F1 _]. destruct (flip_init k (xs j) (os j) (rs j) kok (sy_init _ _ _ _ _ sys j Hj) (sy_phys _ _ _ _ _ sys j Hj) (Hr0 j Hj)) as (o2 & E1 & E2 & _).
      rewrite F1 in E1. apply Ok_inj in E1. subst o2. exact E2. }
    split; [apply scale_same_flux; assumption|].
    destruct Hc' as [C|[C|[C1 C2]]]; [left; exact C|discriminate C|right; right; split; [exact C1|]]. apply scale_same_mask; [exact s0|exact E|]. destruct C2 as [C2|C2]; [left; exact C2|right].
    intros j Hj. destruct (F j Hj) as [F1 _]. apply (kep_circ k _ _ F1). unfold flip_args. rewrite (C2 j Hj). reflexivity.
Qed.
