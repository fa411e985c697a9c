(** * Array orbits are evaluated planet by planet *)
From Coq Require Import Reals List Bool Arith Lia.
From Verif Require Import Num CoreOps Inst M_units M_kepler M_fin M_tensor Spec_orbit Spec_params.
Import ListNotations.
Open Scope R_scope.

Section S.
Variable k : consts.
Variable i : idx.
Local Notation g := (fun a : tens => aget a i).

Lemma to_unit_at q u : to_unit (map_qty g q) u = rmap g (to_unit q u).
Proof. unfold to_unit. destruct q as [v [w|]]; cbn; [|reflexivity]. destruct (uto w u); reflexivity. Qed.
Lemma opt_to_unit_at q u : opt_to_unit (option_map (map_qty g) q) u = rmap (option_map g) (opt_to_unit q u).
Proof.
  destruct q as [q|]; cbn [option_map opt_to_unit rmap]; [|reflexivity]. rewrite to_unit_at. destruct (to_unit q u); reflexivity.
Qed.
Lemma is_none_at {A C} (f : A -> C) o : is_none (option_map f o) = is_none o.
Proof. destruct o; reflexivity. Qed.
Lemma kep_units_at x : kep_units (args_at i x) =
  rmap (fun p => (option_map (map_qty g) (fst p), option_map (map_qty g) (snd p))) (kep_units x).
Proof.
  unfold kep_units, args_at. cbn [map_args ka_m_planet ka_rho_star ka_m_planet_units ka_rho_star_units].
  destruct (ka_m_planet_units x); destruct (ka_m_planet x) as [[? [?|]]|]; cbn; try reflexivity;
  destruct (ka_rho_star_units x); destruct (ka_rho_star x) as [[? [?|]]|]; reflexivity.
Qed.
Lemma kep_duration_at x : kep_duration (args_at i x) =
  rmap (fun p => let '(a, r, d, j) := p in (option_map (map_qty g) a, option_map (map_qty g) r,
     option_map (map_qty g) d, option_map g j)) (kep_duration x).
Proof.
  unfold kep_duration, args_at. cbn [map_args ka_ecc ka_duration ka_r_star ka_b ka_period ka_ror ka_a].
  destruct (ka_ecc x), (ka_duration x); cbn [option_map]; try reflexivity.
  destruct (ka_b x); cbn [option_map]; [|reflexivity].
  destruct (ka_period x); cbn [option_map]; [|reflexivity].
  destruct (ka_ror x), (ka_r_star x); reflexivity.
Qed.
Lemma kep_omega_at x : kep_omega (args_at i x) = rmap (option_map (map_eccd g)) (kep_omega x).
Proof.
  unfold kep_omega, args_at. cbn [map_args ka_ecc ka_omega ka_sin_omega ka_cos_omega].
  destruct (ka_ecc x), (ka_omega x), (ka_sin_omega x), (ka_cos_omega x); reflexivity.
Qed.
Lemma kep_times_at x P M n : kep_times (args_at i x) (g P) (g M) (g n) = rmap (fun p => (g (fst p), g (snd p))) (kep_times x P M n).
Proof.
  unfold kep_times, args_at. cbn [map_args ka_t0 ka_tper].
  destruct (ka_t0 x), (ka_tper x); reflexivity.
Qed.
Lemma kep_incl_at x dur ed f d a p ap r :
  kep_incl k (args_at i x) (option_map (map_qty g) dur) (option_map (map_eccd g) ed) (g f) (g d) (g a) (g p) (g ap) (g r)
  = rmap (fun v => let '(b, c, j, da) := v in (g b, g c, g j, option_map g da)) (kep_incl k x dur ed f d a p ap r).
Proof.
  unfold kep_incl, args_at. cbn [map_args ka_b ka_incl]. rewrite !is_none_at.
  destruct (ka_b x); cbn [option_map]; [destruct (_ || _); reflexivity|].
  destruct (ka_incl x); cbn [option_map]; [destruct (negb _); reflexivity|].
  destruct dur as [q|]; cbn [option_map]; [|reflexivity].
  destruct ed; cbn [option_map]; [|reflexivity]. rewrite to_unit_at.
  destruct (to_unit q (u_day k)); reflexivity.
Qed.
Lemma ci_at a p rho r m mp :
  let q := option_map (map_qty g) in
  consistent_inputs k (q a) (q p) (q rho) (q r) (q m) (q mp)
  = rmap (fun v => let '(A, P, RHO, RS, MS, MP) := v in (g A, g P, g RHO, g RS, g MS, g MP)) (consistent_inputs k a p rho r m mp).
Proof.
  intro q. unfold consistent_inputs, q. rewrite !is_none_at, !opt_to_unit_at.
  destruct (is_none a && is_none p); [reflexivity|].
  destruct (opt_to_unit mp (u_M_sun k)) as [vmp|]; [|reflexivity].
  destruct (opt_to_unit a (u_R_sun k)) as [av|]; [|reflexivity].
  destruct (opt_to_unit p (u_day k)) as [pv|]; [|reflexivity].
  cbn [rbind rmap].
  set (mpT := match vmp, av, pv with
    | Some m0, _, _ => m0 | None, Some x, _ => nzl x | None, None, Some p0 => nzl p0 | None, None, None => nlit 0 end).
  replace (match option_map g vmp, option_map g av, option_map g pv with
    | Some m0, _, _ => m0 | None, Some x, _ => nzl x | None, None, Some p0 => nzl p0 | None, None, None => nlit 0 end)
   with (g mpT) by (unfold mpT; destruct vmp, av, pv; reflexivity).
  set (rq := if is_none r && is_none m then Some (plain (nlit 1)) else r).
  replace (if is_none r && is_none m then Some (plain (nlit 1)) else option_map (map_qty g) r)
      with (option_map (map_qty g) rq) by (unfold rq; destruct (is_none r && is_none m); reflexivity).
  set (mq := if is_none r && is_none m && is_none rho then Some (plain (nlit 1)) else m).
  replace (if is_none r && is_none m && is_none rho then Some (plain (nlit 1)) else option_map (map_qty g) m)
      with (option_map (map_qty g) mq) by (unfold mq; destruct (is_none r && is_none m && is_none rho); reflexivity).
  set (rh := match rho with None => Ok None | Some q0 => match qu q0 with
        | Some _ => rmap Some (to_unit q0 (u_rho_sun k)) | None => Ok (Some (qv q0 / nlit (gcc_per_sun k)))%num end end).
  replace (match option_map (map_qty g) rho with None => Ok None | Some q0 => match qu q0 with
        | Some _ => rmap Some (to_unit q0 (u_rho_sun k)) | None => Ok (Some (qv q0 / nlit (gcc_per_sun k)))%num end end)
      with (rmap (option_map g) rh).
  2:{ unfold rh. destruct rho as [[v0 [u0|]]|]; cbn [option_map map_qty qu qv rmap]; try reflexivity.
      change (Q (aget v0 i) (Some u0)) with (map_qty g (Q v0 (Some u0))). rewrite to_unit_at.
      destruct (to_unit (Q v0 (Some u0)) (u_rho_sun k)); reflexivity. }
  rewrite !is_none_at, !opt_to_unit_at.
  destruct av as [av|], pv as [pv|]; cbn [option_map].
  - destruct (negb (is_none rho) || negb (is_none m)); [reflexivity|].
    destruct r as [r|]; cbn [option_map]; [rewrite to_unit_at; destruct (to_unit r (u_R_sun k)); reflexivity|reflexivity].
  - destruct (negb _); [reflexivity|]. destruct rh as [rh'|]; [|reflexivity]. cbn [rmap rbind].
    destruct (opt_to_unit rq (u_R_sun k)) as [rs|]; [|reflexivity].
    destruct (opt_to_unit mq (u_M_sun k)) as [ms|]; [|reflexivity].
    destruct rh' as [rho'|], rs as [rs'|], ms as [ms'|]; reflexivity.
  - destruct (negb _); [reflexivity|]. destruct rh as [rh'|]; [|reflexivity]. cbn [rmap rbind].
    destruct (opt_to_unit rq (u_R_sun k)) as [rs|]; [|reflexivity].
    destruct (opt_to_unit mq (u_M_sun k)) as [ms|]; [|reflexivity].
    destruct rh' as [rho'|], rs as [rs'|], ms as [ms'|]; reflexivity.
  - destruct (negb _); [reflexivity|]. destruct rh as [rh'|]; [|reflexivity]. cbn [rmap rbind].
    destruct (opt_to_unit rq (u_R_sun k)) as [rs|]; [|reflexivity].
    destruct (opt_to_unit mq (u_M_sun k)) as [ms|]; [|reflexivity].
    destruct rh' as [rho'|], rs as [rs'|], ms as [ms'|]; reflexivity.
Qed.

Lemma kep_init_at x : kep_init k (args_at i x) = rmap (orbit_at i) (kep_init k x).
Proof.
  unfold kep_init. rewrite kep_units_at. destruct (kep_units x) as [[mp rho]|]; [|reflexivity]. cbn [rbind rmap fst snd].
  rewrite kep_duration_at. destruct (kep_duration x) as [[[[a rs] dur] dao]|]; [|reflexivity]. cbn [rbind rmap].
  change (ka_period (args_at i x)) with (option_map (map_qty g) (ka_period x)).
  change (ka_m_star (args_at i x)) with (option_map (map_qty g) (ka_m_star x)).
  assert (C := ci_at a (ka_period x) rho rs (ka_m_star x) mp). cbv zeta in C. rewrite C. clear C.
  destruct (consistent_inputs k a (ka_period x) rho rs (ka_m_star x) mp) as [[[[[[A P] RHO] RS] MS] MP]|]; [|reflexivity].
  cbn [rbind rmap]. rewrite kep_omega_at. destruct (kep_omega x) as [ed|]; [|reflexivity]. cbn [rbind rmap].
  set (fac := match ed with None => nlit 1 | Some d => ((nlit 1 + e_ecc d * e_sinw d) / (nlit 1 - e_ecc d ^ 2))%num end).
  replace (match option_map (map_eccd g) ed with None => nlit 1 | Some d => ((nlit 1 + e_ecc d * e_sinw d) / (nlit 1 - e_ecc d ^ 2))%num end)
    with (aget fac i) by (unfold fac; destruct ed; reflexivity).
  set (n0 := (nlit 2 * nlit PI / P)%num). change (nlit 2 * nlit PI / aget P i)%num with (aget n0 i).
  set (apl := (- A * MS / (MS + MP))%num). change (- aget A i * aget MS i / (aget MS i + aget MP i))%num with (aget apl i).
  set (dc := (fac * RS / A)%num). change (aget fac i * aget RS i / aget A i)%num with (aget dc i).
  set (M0 := match ed with None => (nlit 0.5 * nlit PI + nzl n0)%num | Some d => kep_M0 d end).
  replace (match option_map (map_eccd g) ed with None => (nlit 0.5 * nlit PI + nzl (aget n0 i))%num | Some d => kep_M0 d end)
    with (aget M0 i) by (unfold M0; destruct ed; reflexivity).
  cbv beta. rewrite kep_incl_at. destruct (kep_incl k x dur ed fac dc A P apl RS) as [[[[b ci] inc] da]|]; [|reflexivity].
  cbn [rbind rmap]. rewrite kep_times_at. destruct (kep_times x P M0 n0) as [[t0 tp]|]; [|reflexivity].
  cbn [rbind rmap fst snd]. apply (f_equal (@Ok (orbit fl))). unfold orbit_at, map_orbit.
  cbn [o_a o_period o_rho_star o_r_star o_m_star o_m_planet o_m_total o_n o_a_star
    o_a_planet o_K0 o_Omega o_ecc o_M0 o_dcosidb o_b o_cos_incl o_incl o_sin_incl o_t0 o_tper o_tref o_jac o_duration].
  f_equal.
  - destruct ed; reflexivity.
  - unfold args_at. cbn [map_args ka_Omega]. destruct (ka_Omega x); reflexivity.
  - destruct dao; reflexivity.
Qed.

(** ** Evaluation at time index and planet index *)
Variable o : orbit tens.
Variable w : bool -> tens -> tens.
Variable wf : bool -> fl -> fl.
Hypothesis Hw1 : forall t, aget (w true t) i = wf true (aget t (fun d => i (S d))).
Hypothesis Hw0 : forall t, aget (w false t) i = wf false (aget t i).
Local Notation og := (orbit_at i o).

Lemma ta_at pad t : let '(s, c) := true_anomaly o w pad t in
  (aget s i, aget c i) = true_anomaly og wf pad (if pad then aget t (fun d => i (S d)) else aget t i).
Proof.
  destruct pad; unfold true_anomaly, orbit_at; cbn [map_orbit o_tref o_n o_ecc];
    [rewrite <- Hw1|rewrite <- Hw0]; destruct (o_ecc o); reflexivity.
Qed.
Lemma rot_at x y : map_vec g (rotate_vector o x y) = rotate_vector og (g x) (g y).
Proof.
  unfold rotate_vector, orbit_at. cbn [map_orbit o_ecc o_Omega o_cos_incl o_sin_incl].
  destruct (o_ecc o), (o_Omega o); reflexivity.
Qed.
Lemma pos_nd_at a t par pad : map_vec g (position_nodelay k o w a t par pad)
  = position_nodelay k og wf (g a) (if pad then aget t (fun d => i (S d)) else aget t i) (option_map g par) pad.
Proof.
  unfold position_nodelay. assert (T := ta_at pad t). destruct (true_anomaly o w pad t) as [s c].
  rewrite <- T. rewrite rot_at. unfold orbit_at. cbn [map_orbit o_ecc].
  destruct (o_ecc o), par; reflexivity.
Qed.
Lemma retarded_at a t par pad : map_vec g (get_position k o w a t par true pad)
  = get_position k og wf (g a) (if pad then aget t (fun d => i (S d)) else aget t i) (option_map g par) true pad.
Proof.
  unfold get_position, retarded_position.
  assert (E : map_vec g (retarded_state o w a t pad) = retarded_state og wf (g a) (if pad then aget t (fun d => i (S d)) else aget t i) pad).
  { unfold retarded_state. assert (T := ta_at pad t). destruct (true_anomaly o w pad t) as [s c]. rewrite <- T.
    unfold orbit_at at 1. cbn [map_orbit o_ecc o_period o_sin_incl].
    destruct (o_ecc o) as [d|]; cbn [option_map].
    - set (r := (a * (nlit 1 - e_ecc d ^ 2) / (nlit 1 + e_ecc d * c))%num).
      assert (R := rot_at (r * c)%num (r * s)%num). destruct (rotate_vector o (r * c)%num (r * s)%num) as [[X Y] Z].
      cbn [map_vec] in *. cbv beta in R.
      match goal with |- context [rotate_vector og ?u ?v] =>
        change (rotate_vector og u v) with (rotate_vector og (aget (r * c)%num i) (aget (r * s)%num i)) end.
      rewrite <- R. reflexivity.
    - assert (R := rot_at (a * c)%num (a * s)%num). destruct (rotate_vector o (a * c)%num (a * s)%num) as [[X Y] Z].
      cbn [map_vec] in *. cbv beta in R.
      match goal with |- context [rotate_vector og ?u ?v] =>
        change (rotate_vector og u v) with (rotate_vector og (aget (a * c)%num i) (aget (a * s)%num i)) end.
      rewrite <- R. reflexivity. }
  rewrite <- E. destruct (retarded_state o w a t pad) as [[v z] az]. cbn [map_vec].
  destruct pad; rewrite pos_nd_at; reflexivity.
Qed.
Lemma get_position_at a t par ld pad : map_vec g (get_position k o w a t par ld pad)
  = get_position k og wf (g a) (if pad then aget t (fun d => i (S d)) else aget t i) (option_map g par) ld pad.
Proof. destruct ld; [apply retarded_at|apply pos_nd_at]. Qed.
Lemma vel_at m t : map_vec g (get_velocity o w m t) = get_velocity og wf (g m) (aget t (fun d => i (S d))).
Proof.
  unfold get_velocity. assert (T := ta_at true t). destruct (true_anomaly o w true t) as [s c]. rewrite <- T.
  unfold orbit_at at 1 2. cbn [map_orbit o_ecc o_K0]. destruct (o_ecc o); cbn [option_map]; rewrite rot_at; reflexivity.
Qed.
Lemma acc_at a m t : map_vec g (get_acceleration o w a m t) = get_acceleration og wf (g a) (g m) (aget t (fun d => i (S d))).
Proof.
  unfold get_acceleration. assert (T := ta_at true t). destruct (true_anomaly o w true t) as [s c]. rewrite <- T.
  rewrite rot_at. unfold orbit_at. cbn [map_orbit o_ecc o_K0]. destruct (o_ecc o); reflexivity.
Qed.
Lemma mask_at cp t r texp :
  let '(m, flag) := transit_mask o w (lift_cp cp) t r texp in
  (aget m i, aget flag i) = transit_mask og wf cp (aget t (fun d => i (S d))) (g r) (option_map g texp).
Proof.
  unfold transit_mask, transit_window, since_transit, lift_cp, orbit_at.
  cbn [map_orbit o_ecc o_a o_r_star o_period o_b o_sin_incl o_cos_incl o_M0 o_n].
  rewrite <- Hw1.
  destruct (o_ecc o) as [d|]; cbn [option_map].
  - cbn [map_eccd e_ecc e_cosw e_sinw].
    match goal with |- _ = ?rhs => match rhs with context [cp ?a ?b ?c ?d ?e ?f ?h] =>
      remember (cp a b c d e f h) as cc eqn:Ec; destruct cc as [[M1 M2] fg];
      assert (E1 : M1 = fst (fst (cp a b c d e f h))) by (rewrite <- Ec; reflexivity);
      assert (E2 : M2 = snd (fst (cp a b c d e f h))) by (rewrite <- Ec; reflexivity);
      assert (E3 : fg = snd (cp a b c d e f h)) by (rewrite <- Ec; reflexivity);
      clear Ec; subst M1 M2 fg end end.
    destruct texp; reflexivity.
  - destruct texp; reflexivity.
Qed.
End S.

Lemma kep_warp_at1 (o : orbit tens) i t :
  aget (kep_warp o true t) i = kep_warp (orbit_at i o) true (aget t (fun d => i (S d))).
Proof. reflexivity. Qed.
Lemma kep_warp_at0 (o : orbit tens) i t :
  aget (kep_warp o false t) i = kep_warp (orbit_at i o) false (aget t i).
Proof. reflexivity. Qed.
