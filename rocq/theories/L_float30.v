(** * The rounded constructor of an array orbit works planet by planet *)
From Coq Require Import Reals List Bool Arith Lia.
From Verif Require Import Num CoreOps Inst M_units M_kepler M_fin M_tensor Spec_orbit Spec_params Spec_float Spec_float2 Spec_float3.
Import ListNotations.
Open Scope R_scope.

Section S.
Variable rd : rounder.
Local Instance NTr : Num tens btens := rounded_tens rd.
Local Instance NFr : Num fl bool := rounded_fl rd.
Variable k : consts.
Variable i : idx.
Lemma g_nneg (a : tens) : aget (nneg a) i = nneg (aget a i). Proof. reflexivity. Qed.
Lemma g_nsqrt (a : tens) : aget (nsqrt a) i = nsqrt (aget a i). Proof. reflexivity. Qed.
Lemma g_nsin (a : tens) : aget (nsin a) i = nsin (aget a i). Proof. reflexivity. Qed.
Lemma g_ncos (a : tens) : aget (ncos a) i = ncos (aget a i). Proof. reflexivity. Qed.
Lemma g_nasin (a : tens) : aget (nasin a) i = nasin (aget a i). Proof. reflexivity. Qed.
Lemma g_nacos (a : tens) : aget (nacos a) i = nacos (aget a i). Proof. reflexivity. Qed.
Lemma g_nexp (a : tens) : aget (nexp a) i = nexp (aget a i). Proof. reflexivity. Qed.
Lemma g_nlog (a : tens) : aget (nlog a) i = nlog (aget a i). Proof. reflexivity. Qed.
Lemma g_nabs (a : tens) : aget (nabs a) i = nabs (aget a i). Proof. reflexivity. Qed.
Lemma g_nfloor (a : tens) : aget (nfloor a) i = nfloor (aget a i). Proof. reflexivity. Qed.
Lemma g_nzl (a : tens) : aget (nzl a) i = nzl (aget a i). Proof. reflexivity. Qed.
Lemma g_nadd (a b : tens) : aget (nadd a b) i = nadd (aget a i) (aget b i). Proof. reflexivity. Qed.
Lemma g_nsub (a b : tens) : aget (nsub a b) i = nsub (aget a i) (aget b i). Proof. reflexivity. Qed.
Lemma g_nmul (a b : tens) : aget (nmul a b) i = nmul (aget a i) (aget b i). Proof. reflexivity. Qed.
Lemma g_ndiv (a b : tens) : aget (ndiv a b) i = ndiv (aget a i) (aget b i). Proof. reflexivity. Qed.
Lemma g_natan2 (a b : tens) : aget (natan2 a b) i = natan2 (aget a i) (aget b i). Proof. reflexivity. Qed.
Lemma g_nmod (a b : tens) : aget (nmod a b) i = nmod (aget a i) (aget b i). Proof. reflexivity. Qed.
Lemma g_npowr (a b : tens) : aget (npowr a b) i = npowr (aget a i) (aget b i). Proof. reflexivity. Qed.
Lemma g_nkepler_sin (a b : tens) : aget (nkepler_sin a b) i = nkepler_sin (aget a i) (aget b i). Proof. reflexivity. Qed.
Lemma g_nkepler_cos (a b : tens) : aget (nkepler_cos a b) i = nkepler_cos (aget a i) (aget b i). Proof. reflexivity. Qed.
Lemma g_nlit v : aget (nlit v : tens) i = nlit v. Proof. reflexivity. Qed.
Lemma g_npw (a : tens) m : aget (npw a m) i = npw (aget a i) m. Proof. induction m as [|m IH]; [reflexivity|]. destruct m; [reflexivity|]. cbn [npw] in *. rewrite g_nmul, IH. reflexivity. Qed.
Ltac gs := cbn [rmap rbind option_map map_qty map_eccd map_omgd map_jacd qv qu e_ecc e_omega e_cosw e_sinw plain fst snd O_Omega O_cos O_sin]; rewrite ?g_npw, ?g_nneg, ?g_nsqrt, ?g_nsin, ?g_ncos, ?g_nasin, ?g_nacos, ?g_nexp, ?g_nlog, ?g_nabs, ?g_nfloor, ?g_nzl, ?g_nadd, ?g_nsub, ?g_nmul, ?g_ndiv, ?g_natan2, ?g_nmod, ?g_npowr, ?g_nkepler_sin, ?g_nkepler_cos, ?g_nlit; reflexivity.
Local Notation g := (fun a : tens => aget a i).

Lemma to_unit_at q u : to_unit (map_qty g q) u = rmap g (to_unit q u).
Proof. unfold to_unit. destruct q as [v [w|]]; cbn; [|reflexivity]. destruct (uto w u); reflexivity. Qed.
Lemma opt_to_unit_at q u : opt_to_unit (option_map (map_qty g) q) u = rmap (option_map g) (opt_to_unit q u).
Proof.
  destruct q as [q|]; cbn [option_map opt_to_unit rmap]; [|reflexivity]. rewrite to_unit_at. destruct (to_unit q u); reflexivity.
Qed.
Lemma is_none_at {A C} (f : A -> C) o : is_none (option_map f o) = is_none o.
Proof. destruct o; reflexivity. Qed.
Lemma kep_units_at x : kep_units (args_at i x) =
  rmap (fun p => (option_map (map_qty g) (fst p), option_map (map_qty g) (snd p))) (kep_units x).
Proof.
  unfold kep_units, args_at. cbn [map_args ka_m_planet ka_rho_star ka_m_planet_units ka_rho_star_units].
  destruct (ka_m_planet_units x); destruct (ka_m_planet x) as [[? [?|]]|]; cbn; try reflexivity;
  destruct (ka_rho_star_units x); destruct (ka_rho_star x) as [[? [?|]]|]; reflexivity.
Qed.
Lemma no_duration {T B} {M : Num T B} (x : kargs T) : ka_duration x = None -> kep_duration x = Ok (ka_a x, ka_r_star x, None, None).
Proof. intro E. unfold kep_duration. rewrite E. destruct (ka_ecc x); reflexivity. Qed.
Lemma kep_omega_at x : kep_omega (args_at i x) = rmap (option_map (map_eccd g)) (kep_omega x).
Proof.
  unfold kep_omega, args_at. cbn [map_args ka_ecc ka_omega ka_sin_omega ka_cos_omega].
  destruct (ka_ecc x), (ka_omega x), (ka_sin_omega x), (ka_cos_omega x); reflexivity.
Qed.
Lemma kep_times_at x P M n : kep_times (args_at i x) (g P) (g M) (g n) = rmap (fun p => (g (fst p), g (snd p))) (kep_times x P M n).
Proof.
  unfold kep_times, args_at. cbn [map_args ka_t0 ka_tper].
  destruct (ka_t0 x), (ka_tper x); gs.
Qed.
Lemma kep_incl_at x ed f d a p ap r :
  kep_incl k (args_at i x) None (option_map (map_eccd g) ed) (g f) (g d) (g a) (g p) (g ap) (g r)
  = rmap (fun v => let '(b, c, j, da) := v in (g b, g c, g j, option_map g da)) (kep_incl k x None ed f d a p ap r).
Proof.
  unfold kep_incl, args_at. cbn [map_args ka_b ka_incl]. rewrite !is_none_at.
  destruct (ka_b x); cbn [option_map]; [destruct (_ || _); [reflexivity|gs]|].
  destruct (ka_incl x); cbn [option_map]; [destruct (negb _); [reflexivity|gs]|]. gs.
Qed.
Lemma ci_at a p rho r m mp :
  let q := option_map (map_qty g) in
  consistent_inputs k (q a) (q p) (q rho) (q r) (q m) (q mp)
  = rmap (fun v => let '(A, P, RHO, RS, MS, MP) := v in (g A, g P, g RHO, g RS, g MS, g MP)) (consistent_inputs k a p rho r m mp).
Proof.
  intro q. unfold consistent_inputs, q. rewrite !is_none_at, !opt_to_unit_at.
  destruct (is_none a && is_none p); [reflexivity|].
  destruct (opt_to_unit mp (u_M_sun k)) as [vmp|]; [|reflexivity].
  destruct (opt_to_unit a (u_R_sun k)) as [av|]; [|reflexivity].
  destruct (opt_to_unit p (u_day k)) as [pv|]; [|reflexivity].
  cbn [rbind rmap].
  set (mpT := match vmp, av, pv with
    | Some m0, _, _ => m0 | None, Some x, _ => nzl x | None, None, Some p0 => nzl p0 | None, None, None => nlit 0 end).
  replace (match option_map g vmp, option_map g av, option_map g pv with
    | Some m0, _, _ => m0 | None, Some x, _ => nzl x | None, None, Some p0 => nzl p0 | None, None, None => nlit 0 end)
   with (g mpT) by (unfold mpT; destruct vmp, av, pv; reflexivity).
  set (rq := if is_none r && is_none m then Some (plain (nlit 1)) else r).
  replace (if is_none r && is_none m then Some (plain (nlit 1)) else option_map (map_qty g) r)
      with (option_map (map_qty g) rq) by (unfold rq; destruct (is_none r && is_none m); reflexivity).
  set (mq := if is_none r && is_none m && is_none rho then Some (plain (nlit 1)) else m).
  replace (if is_none r && is_none m && is_none rho then Some (plain (nlit 1)) else option_map (map_qty g) m)
      with (option_map (map_qty g) mq) by (unfold mq; destruct (is_none r && is_none m && is_none rho); reflexivity).
  set (rh := match rho with None => Ok None | Some q0 => match qu q0 with
        | Some _ => rmap Some (to_unit q0 (u_rho_sun k)) | None => Ok (Some (qv q0 / nlit (gcc_per_sun k)))%num end end).
  replace (match option_map (map_qty g) rho with None => Ok None | Some q0 => match qu q0 with
        | Some _ => rmap Some (to_unit q0 (u_rho_sun k)) | None => Ok (Some (qv q0 / nlit (gcc_per_sun k)))%num end end)
      with (rmap (option_map g) rh).
  2:{ unfold rh. destruct rho as [[v0 [u0|]]|]; cbn [option_map map_qty qu qv rmap]; try reflexivity.
      change (Q (aget v0 i) (Some u0)) with (map_qty g (Q v0 (Some u0))). rewrite to_unit_at.
      destruct (to_unit (Q v0 (Some u0)) (u_rho_sun k)); reflexivity. }
  rewrite !is_none_at, !opt_to_unit_at.
  destruct av as [av|], pv as [pv|]; cbn [option_map].
  - destruct (negb (is_none rho) || negb (is_none m)); [reflexivity|].
    destruct r as [r|]; cbn [option_map]; [rewrite to_unit_at; destruct (to_unit r (u_R_sun k)); gs|gs].
  - destruct (negb _); [reflexivity|]. destruct rh as [rh'|]; [|reflexivity]. cbn [rmap rbind].
    destruct (opt_to_unit rq (u_R_sun k)) as [rs|]; [|reflexivity].
    destruct (opt_to_unit mq (u_M_sun k)) as [ms|]; [|reflexivity].
    destruct rh' as [rho'|], rs as [rs'|], ms as [ms'|]; gs.
  - destruct (negb _); [reflexivity|]. destruct rh as [rh'|]; [|reflexivity]. cbn [rmap rbind].
    destruct (opt_to_unit rq (u_R_sun k)) as [rs|]; [|reflexivity].
    destruct (opt_to_unit mq (u_M_sun k)) as [ms|]; [|reflexivity].
    destruct rh' as [rho'|], rs as [rs'|], ms as [ms'|]; gs.
  - destruct (negb _); [reflexivity|]. destruct rh as [rh'|]; [|reflexivity]. cbn [rmap rbind].
    destruct (opt_to_unit rq (u_R_sun k)) as [rs|]; [|reflexivity].
    destruct (opt_to_unit mq (u_M_sun k)) as [ms|]; [|reflexivity].
    destruct rh' as [rho'|], rs as [rs'|], ms as [ms'|]; gs.
Qed.

Lemma kep_init_at x : ka_duration x = None -> kep_init k (args_at i x) = rmap (orbit_at i) (kep_init k x).
Proof.
  intro Ed. unfold kep_init. rewrite kep_units_at. destruct (kep_units x) as [[mp rho]|]; [|reflexivity]. cbn [rbind rmap fst snd].
  rewrite (no_duration x Ed), (no_duration (args_at i x)) by (unfold args_at; cbn [map_args ka_duration]; rewrite Ed; reflexivity). cbn [rbind rmap].
  change (ka_a (args_at i x)) with (option_map (map_qty g) (ka_a x)). change (ka_r_star (args_at i x)) with (option_map (map_qty g) (ka_r_star x)).
  change (ka_period (args_at i x)) with (option_map (map_qty g) (ka_period x)).
  change (ka_m_star (args_at i x)) with (option_map (map_qty g) (ka_m_star x)).
  assert (C := ci_at (ka_a x) (ka_period x) rho (ka_r_star x) (ka_m_star x) mp). cbv zeta in C. rewrite C. clear C.
  destruct (consistent_inputs k (ka_a x) (ka_period x) rho (ka_r_star x) (ka_m_star x) mp) as [[[[[[A P] RHO] RS] MS] MP]|]; [|reflexivity].
  cbn [rbind rmap]. rewrite kep_omega_at. destruct (kep_omega x) as [ed|]; [|reflexivity]. cbn [rbind rmap].
  set (fac := match ed with None => nlit 1 | Some d => ((nlit 1 + e_ecc d * e_sinw d) / (nlit 1 - e_ecc d ^ 2))%num end).
  replace (match option_map (map_eccd g) ed with None => nlit 1 | Some d => ((nlit 1 + e_ecc d * e_sinw d) / (nlit 1 - e_ecc d ^ 2))%num end)
    with (aget fac i) by (unfold fac; destruct ed; gs).
  set (n0 := (nlit 2 * nlit PI / P)%num). replace (nlit 2 * nlit PI / aget P i)%num with (aget n0 i) by (unfold n0; gs).
  set (apl := (- A * MS / (MS + MP))%num). replace (- aget A i * aget MS i / (aget MS i + aget MP i))%num with (aget apl i) by (unfold apl; gs).
  set (dc := (fac * RS / A)%num). replace (aget fac i * aget RS i / aget A i)%num with (aget dc i) by (unfold dc; gs).
  set (M0 := match ed with None => (nlit 0.5 * nlit PI + nzl n0)%num | Some d => kep_M0 d end).
  replace (match option_map (map_eccd g) ed with None => (nlit 0.5 * nlit PI + nzl (aget n0 i))%num | Some d => kep_M0 d end)
    with (aget M0 i) by (unfold M0; destruct ed; unfold kep_M0; gs).
  cbv beta. rewrite kep_incl_at. destruct (kep_incl k x None ed fac dc A P apl RS) as [[[[b ci] inc] da]|]; [|reflexivity].
  cbn [rbind rmap]. rewrite kep_times_at. destruct (kep_times x P M0 n0) as [[t0 tp]|]; [|reflexivity].
  cbn [rbind rmap fst snd]. apply (f_equal (@Ok (orbit fl))). unfold orbit_at, map_orbit.
  cbn [o_a o_period o_rho_star o_r_star o_m_star o_m_planet o_m_total o_n o_a_star
    o_a_planet o_K0 o_Omega o_ecc o_M0 o_dcosidb o_b o_cos_incl o_incl o_sin_incl o_t0 o_tper o_tref o_jac o_duration].
  clearbody n0 apl dc M0 fac. unfold args_at. cbn [map_args ka_Omega]. destruct ed, (ka_Omega x); gs.
Qed.

End S.
