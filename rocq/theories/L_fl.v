(** * On finite inputs the machine-number model follows the exact one *)
From Coq Require Import Reals List Bool Lra Psatz.
From Verif Require Import Num CoreOps Inst M_units M_kepler M_fin Spec_orbit L_real L_kepop L_orbit.
Open Scope R_scope.

Lemma Reqb_false x y : x <> y -> Reqb x y = false.
Proof. intro H. unfold Reqb. destruct (Req_EM_T x y); congruence. Qed.
Lemma Reqb_true x y : x = y -> Reqb x y = true.
Proof. intro H. unfold Reqb. destruct (Req_EM_T x y); congruence. Qed.
Lemma Rltb_false x y : y <= x -> Rltb x y = false.
Proof. intro H. unfold Rltb. destruct (Rlt_dec x y); [lra|reflexivity]. Qed.
Lemma Rltb_true x y : x < y -> Rltb x y = true.
Proof. intro H. unfold Rltb. destruct (Rlt_dec x y); [reflexivity|lra]. Qed.
Lemma Rleb_true x y : x <= y -> Rleb x y = true.
Proof. intro H. unfold Rleb. destruct (Rle_dec x y); [reflexivity|lra]. Qed.
Lemma Rleb_false x y : y < x -> Rleb x y = false.
Proof. intro H. unfold Rleb. destruct (Rle_dec x y); [lra|reflexivity]. Qed.

Lemma fdiv_fin x y : y <> 0 -> fdiv (Fin x) (Fin y) = Fin (x / y).
Proof. intro H. cbn. rewrite (Reqb_false _ _ H). reflexivity. Qed.
Lemma fsqrt_fin x : 0 <= x -> fsqrt (Fin x) = Fin (sqrt x).
Proof. intro H. cbn. rewrite Rltb_false by lra. reflexivity. Qed.
Lemma facos_fin x : -1 <= x <= 1 -> farc acos (Fin x) = Fin (acos x).
Proof. intro H. cbn. rewrite !Rleb_true by lra. reflexivity. Qed.
Lemma fasin_fin x : -1 <= x <= 1 -> farc asin (Fin x) = Fin (asin x).
Proof. intro H. cbn. rewrite !Rleb_true by lra. reflexivity. Qed.
Lemma fpowr_fin x y : 0 < x -> fpowr (Fin x) (Fin y) = Fin (Rpowr x y).
Proof. intro H. cbn. rewrite Rltb_false, Reqb_false by lra. reflexivity. Qed.
Lemma fmod_fin x y : y <> 0 -> fmod (Fin x) (Fin y) = Fin (Rmodulo x y).
Proof. intro H. cbn. rewrite Reqb_false by assumption. reflexivity. Qed.
Lemma fkep_fin f M e : 0 <= e < 1 -> fkep f (Fin M) (Fin e) = Fin (f M e).
Proof. intro H. cbn. rewrite Rleb_true, Rltb_true by lra. reflexivity. Qed.
Lemma fsub_fin x y : fsub (Fin x) (Fin y) = Fin (x - y).
Proof. reflexivity. Qed.

Ltac fn := cbn [nlit nadd nsub nmul ndiv nneg nsqrt nsin ncos nasin nacos natan2 nexp nlog nabs nfloor nmod npowr
  nkepler_sin nkepler_cos nzl npadr nsqz nlt nle nband nsw NumF NumR npw
  fadd fmul fneg fsub ftrig fatan2 fabs fst snd option_map rmap rbind].

Lemma to_unit_fin q u : to_unit (map_qty Fin q) u = rmap Fin (to_unit q u).
Proof. unfold to_unit. destruct q as [v [w|]]; cbn; [|reflexivity]. destruct (uto w u); reflexivity. Qed.
Lemma opt_to_unit_fin q u : opt_to_unit (option_map (map_qty Fin) q) u = rmap (option_map Fin) (opt_to_unit q u).
Proof.
  destruct q as [q|]; cbn; [|reflexivity]. rewrite to_unit_fin. destruct (to_unit q u); reflexivity.
Qed.
Lemma is_none_map {A C} (f : A -> C) o : is_none (option_map f o) = is_none o.
Proof. destruct o; reflexivity. Qed.
Lemma kep_units_fin x : kep_units (fin_args x) =
  rmap (fun p => (option_map (map_qty Fin) (fst p), option_map (map_qty Fin) (snd p))) (kep_units x).
Proof.
  unfold kep_units, fin_args. cbn [map_args ka_m_planet ka_rho_star ka_m_planet_units ka_rho_star_units].
  destruct (ka_m_planet_units x); destruct (ka_m_planet x) as [[? [?|]]|]; cbn; try reflexivity;
  destruct (ka_rho_star_units x); destruct (ka_rho_star x) as [[? [?|]]|]; reflexivity.
Qed.

Section S.
Variable k : consts.
Hypothesis kok : consts_ok k.

Definition fin6 (v : R * R * R * R * R * R) : fl * fl * fl * fl * fl * fl :=
  let '(a, b, c, d, e, f) := v in (Fin a, Fin b, Fin c, Fin d, Fin e, Fin f).

Lemma ci_fin a p rho r m mp A P RHO RS MS MP :
  consistent_inputs k a p rho r m mp = Ok (A, P, RHO, RS, MS, MP) ->
  0 < A -> 0 < P -> 0 < RS -> 0 < MS + MP ->
  let q := option_map (map_qty Fin) in
  consistent_inputs k (q a) (q p) (q rho) (q r) (q m) (q mp) = Ok (Fin A, Fin P, Fin RHO, Fin RS, Fin MS, Fin MP).
Proof.
  assert (HG := ok_G _ kok). assert (Hg := consts_gcc_pos k kok). assert (Hpi := PI_pos).
  intros H HA HP HR HM q. revert H. unfold consistent_inputs, q. rewrite !is_none_map, !opt_to_unit_fin.
  destruct (is_none a && is_none p) eqn:Hn; [discriminate|].
  destruct (opt_to_unit mp (u_M_sun k)) as [vmp|]; [|discriminate].
  destruct (opt_to_unit a (u_R_sun k)) as [av|]; [|discriminate].
  destruct (opt_to_unit p (u_day k)) as [pv|]; [|discriminate].
  cbn [rbind rmap]. set (mp' := match vmp with Some m0 => m0 | None => 0 end).
  replace (match option_map Fin vmp, option_map Fin av, option_map Fin pv with
    | Some m0, _, _ => m0 | None, Some x, _ => nzl x | None, None, Some p0 => nzl p0 | None, None, None => nlit 0 end)
   with (Fin mp') by (destruct vmp, av, pv; reflexivity).
  replace (match vmp, av, pv with
    | Some m0, _, _ => m0 | None, Some x, _ => nzl x | None, None, Some p0 => nzl p0 | None, None, None => nlit 0 end)
   with mp' by (destruct vmp, av, pv; reflexivity).
  assert (Fin1 : Some (plain (nlit 1)) = option_map (map_qty Fin) (Some (plain 1))) by reflexivity.
  destruct av as [av|], pv as [pv|]; cbn [option_map].
  - destruct (negb (is_none rho) || negb (is_none m)); [discriminate|].
    replace (match option_map (map_qty Fin) r with None => Ok (nlit 1) | Some q0 => to_unit q0 (u_R_sun k) end)
      with (rmap Fin (match r with None => Ok (nlit 1) | Some q0 => to_unit q0 (u_R_sun k) end))
      by (destruct r; cbn; [rewrite to_unit_fin|]; reflexivity).
    destruct (match r with None => _ | Some _ => _ end) as [rs|]; [|discriminate].
    cbn [rbind rmap]. intro H. fn. inversion H; subst; clear H.
    rewrite (fdiv_fin (4 * PI * PI * (A * (A * A)))) by (assert (0 < P * P) by nra; nra).
    fn. rewrite (fdiv_fin (4 * PI * (RS * (RS * RS)))) by lra. fn.
    assert (0 < 4 * PI * (RS * (RS * RS)) / 3).
    { assert (0 < RS * RS) by nra. assert (0 < RS * (RS * RS)) by nra. nra. }
    rewrite fdiv_fin by lra. reflexivity.
  - set (rq := if is_none r && is_none m then Some (plain (nlit 1)) else r).
    replace (if is_none r && is_none m then Some (plain (nlit 1)) else option_map (map_qty Fin) r)
      with (option_map (map_qty Fin) rq) by (unfold rq; destruct (is_none r && is_none m); reflexivity).
    set (mq := if is_none r && is_none m && is_none rho then Some (plain (nlit 1)) else m).
    replace (if is_none r && is_none m && is_none rho then Some (plain (nlit 1)) else option_map (map_qty Fin) m)
      with (option_map (map_qty Fin) mq) by (unfold mq; destruct (is_none r && is_none m && is_none rho); reflexivity).
    rewrite !is_none_map, !opt_to_unit_fin.
    destruct (negb _); [discriminate|].
    set (rh := match rho with None => Ok None | Some q0 => match qu q0 with
        | Some _ => rmap Some (to_unit q0 (u_rho_sun k)) | None => Ok (Some (qv q0 / nlit (gcc_per_sun k)))%num end end).
    replace (match option_map (map_qty Fin) rho with None => Ok None | Some q0 => match qu q0 with
        | Some _ => rmap Some (to_unit q0 (u_rho_sun k)) | None => Ok (Some (qv q0 / nlit (gcc_per_sun k)))%num end end)
      with (rmap (option_map Fin) rh).
    2:{ unfold rh. destruct rho as [[v0 [u0|]]|]; cbn [option_map map_qty qu qv rmap]; [|fn; rewrite fdiv_fin by lra|]; try reflexivity.
        change (Q (Fin v0) (Some u0)) with (map_qty Fin (Q v0 (Some u0))). rewrite to_unit_fin.
        destruct (to_unit (Q v0 (Some u0)) (u_rho_sun k)); reflexivity. }
    destruct rh as [rh'|]; [|discriminate]. cbn [rmap rbind].
    destruct (opt_to_unit rq (u_R_sun k)) as [rs|]; [|discriminate].
    destruct (opt_to_unit mq (u_M_sun k)) as [ms|]; [|discriminate].
    cbn [rmap rbind].
    assert (tail : forall rho' rs' ms', Ok (rho', rs', ms') = Ok (rho', rs', ms') ->
      (let p0 := (nlit 2 * nlit PI * npowr av (nlit (3 / 2)) / nsqrt (nlit (G_grav k) * (ms' + mp')))%num in
       Ok (av, p0, (rho' * nlit (gcc_per_sun k))%num, rs', ms', mp') = Ok (A, P, RHO, RS, MS, MP)) ->
      (let p0 := (nlit 2 * nlit PI * npowr (Fin av) (nlit (3 / 2)) / nsqrt (nlit (G_grav k) * (Fin ms' + Fin mp')))%num in
       Ok (Fin av, p0, (Fin rho' * nlit (gcc_per_sun k))%num, Fin rs', Fin ms', Fin mp')
       = Ok (Fin A, Fin P, Fin RHO, Fin RS, Fin MS, Fin MP))).
    { intros rho' rs' ms' _ H. cbv zeta in *. revert H. fn. intro H. inversion H; subst; clear H.
      assert (0 < sqrt (G_grav k * (MS + mp'))) by (apply sqrt_lt_R0; nra).
      rewrite fpowr_fin by assumption. fn. rewrite fsqrt_fin by nra. rewrite fdiv_fin by lra. reflexivity. }
    destruct rh' as [rho'|], rs as [rs'|], ms as [ms'|]; cbn [option_map rbind]; try discriminate; intro H.
    + (* rho, r *)
      assert (T := tail _ _ _ eq_refl H). fn. rewrite fdiv_fin by lra. fn. exact T.
    + (* rho, m *)
      assert (T := tail _ _ _ eq_refl H). revert H. fn. intro H. inversion H; subst; clear H.
      assert (Hb : 0 < 3 * MS / (4 * PI * rho')).
      { destruct (Rlt_dec 0 (3 * MS / (4 * PI * rho'))); auto.
        rewrite Rpowr_third_nonpos in HR by lra. lra. }
      assert (Hr0 : rho' <> 0).
      { intro h. rewrite h in Hb. unfold Rdiv in Hb. rewrite Rmult_0_r, Rinv_0, Rmult_0_r in Hb. lra. }
      rewrite (fdiv_fin (3 * MS)) by nra. rewrite (fpowr_fin (3 * MS / _)) by assumption. exact T.
    + (* r, m *)
      assert (T := tail _ _ _ eq_refl H). revert H. fn. intro H. inversion H; subst; clear H.
      rewrite fdiv_fin; [exact T|]. assert (0 < RS * RS) by nra. assert (0 < RS * (RS * RS)) by nra. nra.
  - set (rq := if is_none r && is_none m then Some (plain (nlit 1)) else r).
    replace (if is_none r && is_none m then Some (plain (nlit 1)) else option_map (map_qty Fin) r)
      with (option_map (map_qty Fin) rq) by (unfold rq; destruct (is_none r && is_none m); reflexivity).
    set (mq := if is_none r && is_none m && is_none rho then Some (plain (nlit 1)) else m).
    replace (if is_none r && is_none m && is_none rho then Some (plain (nlit 1)) else option_map (map_qty Fin) m)
      with (option_map (map_qty Fin) mq) by (unfold mq; destruct (is_none r && is_none m && is_none rho); reflexivity).
    rewrite !is_none_map, !opt_to_unit_fin.
    destruct (negb _); [discriminate|].
    set (rh := match rho with None => Ok None | Some q0 => match qu q0 with
        | Some _ => rmap Some (to_unit q0 (u_rho_sun k)) | None => Ok (Some (qv q0 / nlit (gcc_per_sun k)))%num end end).
    replace (match option_map (map_qty Fin) rho with None => Ok None | Some q0 => match qu q0 with
        | Some _ => rmap Some (to_unit q0 (u_rho_sun k)) | None => Ok (Some (qv q0 / nlit (gcc_per_sun k)))%num end end)
      with (rmap (option_map Fin) rh).
    2:{ unfold rh. destruct rho as [[v0 [u0|]]|]; cbn [option_map map_qty qu qv rmap]; [|fn; rewrite fdiv_fin by lra|]; try reflexivity.
        change (Q (Fin v0) (Some u0)) with (map_qty Fin (Q v0 (Some u0))). rewrite to_unit_fin.
        destruct (to_unit (Q v0 (Some u0)) (u_rho_sun k)); reflexivity. }
    destruct rh as [rh'|]; [|discriminate]. cbn [rmap rbind].
    destruct (opt_to_unit rq (u_R_sun k)) as [rs|]; [|discriminate].
    destruct (opt_to_unit mq (u_M_sun k)) as [ms|]; [|discriminate].
    cbn [rmap rbind].
    assert (tail : forall rho' rs' ms', Ok (rho', rs', ms') = Ok (rho', rs', ms') ->
      (let av := (npowr (nlit (G_grav k) * (ms' + mp') * pv ^ 2 / (nlit 4 * nlit PI ^ 2)) (nlit (1 / 3)))%num in
       Ok (av, pv, (rho' * nlit (gcc_per_sun k))%num, rs', ms', mp') = Ok (A, P, RHO, RS, MS, MP)) ->
      (let av := (npowr (nlit (G_grav k) * (Fin ms' + Fin mp') * Fin pv ^ 2 / (nlit 4 * nlit PI ^ 2)) (nlit (1 / 3)))%num in
       Ok (av, Fin pv, (Fin rho' * nlit (gcc_per_sun k))%num, Fin rs', Fin ms', Fin mp')
       = Ok (Fin A, Fin P, Fin RHO, Fin RS, Fin MS, Fin MP))).
    { intros rho' rs' ms' _ H. cbv zeta in *. revert H. fn. intro H. inversion H; subst; clear H.
      assert (0 < PI * PI) by nra.
      rewrite fdiv_fin by lra. rewrite fpowr_fin; [reflexivity|].
      apply Rdiv_lt_0_compat; [|lra]. apply Rmult_lt_0_compat; nra. }
    destruct rh' as [rho'|], rs as [rs'|], ms as [ms'|]; cbn [option_map rbind]; try discriminate; intro H.
    + assert (T := tail _ _ _ eq_refl H). fn. rewrite (fdiv_fin _ 3) by lra. fn. exact T.
    + assert (T := tail _ _ _ eq_refl H). revert H. fn. intro H. inversion H; subst; clear H.
      assert (Hb : 0 < 3 * MS / (4 * PI * rho')).
      { destruct (Rlt_dec 0 (3 * MS / (4 * PI * rho'))); auto.
        rewrite Rpowr_third_nonpos in HR by lra. lra. }
      assert (Hr0 : rho' <> 0).
      { intro h. rewrite h in Hb. unfold Rdiv in Hb. rewrite Rmult_0_r, Rinv_0, Rmult_0_r in Hb. lra. }
      rewrite (fdiv_fin (3 * MS)) by nra. rewrite (fpowr_fin (3 * MS / _)) by assumption. exact T.
    + assert (T := tail _ _ _ eq_refl H). revert H. fn. intro H. inversion H; subst; clear H.
      rewrite (fdiv_fin (3 * MS)); [exact T|]. assert (0 < RS * RS) by nra. assert (0 < RS * (RS * RS)) by nra. nra.
  - intro H. inv_bind H. destruct v as [[? ?] ?]. discriminate.
Qed.
End S.
