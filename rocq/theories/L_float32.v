(** * The rounded constructor computes with numbers only *)
From Coq Require Import Reals List Bool Lra Psatz.
From Coquelicot Require Import Rcomplements.
From Verif Require Import Num CoreOps Inst M_units M_kepler M_fin Spec_orbit Spec_params Spec_float Spec_float2 L_real L_kepop L_orbit L_motion L_params3 L_fl L_float L_float2 L_float3 L_float4 L_float5 L_float6 L_float17 L_float30.
Open Scope R_scope.

Section S.
Variable u : R.
Variable rd : rounder.
Hypothesis Acc : accurate u rd.
Local Instance NRq : Num R bool := rounded rd.
Local Instance NFq : Num fl bool := rounded_fl rd.

Lemma sgn_pos op a b r : 0 < r -> 0 < rd op a b r.
Proof. intro H. destruct Acc as [U A]. specialize (A op a b r). rewrite (Rabs_pos_eq r) in A by lra. apply Rabs_le_between in A. nra. Qed.
Lemma sgn_inv op a b r : 0 < rd op a b r -> 0 < r.
Proof.
  intro H. destruct Acc as [U A]. specialize (A op a b r). destruct (Rlt_dec 0 r) as [h|h]; [exact h|exfalso].
  rewrite (Rabs_left1 r) in A by lra. apply Rabs_le_between in A. nra.
Qed.
Lemma p_lit r : 0 < r -> 0 < (nlit r : R). Proof. apply sgn_pos. Qed.
Lemma p_add a b : 0 < a -> 0 <= b -> 0 < (a + b)%num. Proof. intros. apply sgn_pos. lra. Qed.
Lemma p_mul a b : 0 < a -> 0 < b -> 0 < (a * b)%num. Proof. intros. apply sgn_pos. apply Rmult_lt_0_compat; assumption. Qed.
Lemma p_div a b : 0 < a -> 0 < b -> 0 < (a / b)%num. Proof. intros. apply sgn_pos. apply Rdiv_lt_0_compat; assumption. Qed.
Lemma p_sqrt a : 0 < a -> 0 < nsqrt a. Proof. intros. apply sgn_pos, sqrt_lt_R0. assumption. Qed.
Lemma p_npw a m : 0 < a -> 0 < npw a m.
Proof. intro H. induction m as [|m IH]; [apply p_lit; lra|]. destruct m; [exact H|]. cbn [npw] in *. apply p_mul; assumption. Qed.
Ltac pos := first [assumption | apply p_lit; first [lra | assumption] | apply p_npw; pos | apply p_mul; pos | apply p_div; pos | apply p_sqrt; pos | apply p_add; [pos|first [assumption|lra|left; pos]]].
Ltac nz := apply Rgt_not_eq; pos.

Lemma f_lit r : (nlit r : fl) = Fin (nlit r). Proof. reflexivity. Qed.
Lemma f_add a b : (Fin a + Fin b)%num = Fin (a + b)%num. Proof. reflexivity. Qed.
Lemma f_sub a b : (Fin a - Fin b)%num = Fin (a - b)%num.
Proof. cbn [nsub NFq NRq rounded_fl rounded]. unfold fsub. cbn [fneg fadd rnd value]. reflexivity. Qed.
Lemma f_mul a b : (Fin a * Fin b)%num = Fin (a * b)%num. Proof. reflexivity. Qed.
Lemma f_neg a : (- Fin a)%num = Fin (- a)%num. Proof. reflexivity. Qed.
Lemma f_sin a : nsin (Fin a) = Fin (nsin a). Proof. reflexivity. Qed.
Lemma f_cos a : ncos (Fin a) = Fin (ncos a). Proof. reflexivity. Qed.
Lemma f_atan2 a b : natan2 (Fin a) (Fin b) = Fin (natan2 a b). Proof. reflexivity. Qed.
Lemma f_zl a : nzl (Fin a) = Fin (nzl a). Proof. reflexivity. Qed.
Lemma f_npw a m : npw (Fin a) m = Fin (npw a m).
Proof. induction m as [|m IH]; [reflexivity|]. destruct m; [reflexivity|]. cbn [npw] in *. rewrite IH. reflexivity. Qed.
Lemma f_div a b : b <> 0 -> (Fin a / Fin b)%num = Fin (a / b)%num.
Proof. intro H. cbn [ndiv NFq NRq rounded_fl rounded]. rewrite fdiv_fin by assumption. reflexivity. Qed.
Lemma f_sqrt a : 0 <= a -> nsqrt (Fin a) = Fin (nsqrt a).
Proof. intro H. cbn [nsqrt NFq NRq rounded_fl rounded]. rewrite fsqrt_fin by assumption. reflexivity. Qed.
Lemma f_acos a : -1 <= a <= 1 -> nacos (Fin a) = Fin (nacos a).
Proof. intro H. cbn [nacos NFq NRq rounded_fl rounded]. rewrite facos_fin by assumption. reflexivity. Qed.
Lemma f_powr a b : 0 < a -> npowr (Fin a) (Fin b) = Fin (npowr a b).
Proof. intro H. cbn [npowr NFq NRq rounded_fl rounded]. rewrite fpowr_fin by assumption. reflexivity. Qed.
Ltac ff := repeat first [rewrite f_lit | rewrite f_npw | rewrite f_add | rewrite f_sub | rewrite f_mul | rewrite f_neg | rewrite f_sin | rewrite f_cos | rewrite f_atan2 | rewrite f_zl
   | rewrite f_div by nz | rewrite f_sqrt by (left; pos) | rewrite f_powr by pos].

Lemma units_fin q w : to_unit (map_qty Fin q) w = rmap Fin (to_unit q w).
Proof. unfold to_unit. destruct q as [v [z|]]; cbn [map_qty qu qv rmap]; [|reflexivity]. destruct (uto z w); cbn [rmap]; [ff|]; reflexivity. Qed.
Lemma opt_units_fin q w : opt_to_unit (option_map (map_qty Fin) q) w = rmap (option_map Fin) (opt_to_unit q w).
Proof. destruct q as [q|]; cbn [option_map opt_to_unit rmap]; [|reflexivity]. rewrite units_fin. destruct (to_unit q w); reflexivity. Qed.

Variable k : consts.
Hypothesis kok : consts_ok k.
Lemma third_args m r : 0 < m -> 0 < npowr (nlit 3 * m / (nlit 4 * nlit PI * r))%num (nlit (1 / 3)) -> 0 < (nlit 3 * m / (nlit 4 * nlit PI * r))%num /\ 0 < r.
Proof.
  intros Hm H. assert (Hpi := PI_pos). assert (K := pow_third_arg u rd Acc _ _ _ _ _ H). split; [exact K|]. apply sgn_inv in K. assert (Q : 0 < (nlit 3 * m)%num) by pos. assert (L : 0 < (nlit 4 * nlit PI)%num) by pos.
  assert (D : 0 < (nlit 4 * nlit PI * r)%num). { destruct (Rlt_dec 0 (nlit 4 * nlit PI * r)%num) as [h|h]; [exact h|exfalso]. destruct (Req_dec (nlit 4 * nlit PI * r)%num 0) as [e|e].
    - unfold Rdiv in K. rewrite e, Rinv_0, Rmult_0_r in K. lra.
    - assert (/ (nlit 4 * nlit PI * r)%num < 0) by (apply Rinv_lt_0_compat; lra). unfold Rdiv in K. nra. }
  apply sgn_inv in D. destruct (Rlt_dec 0 r) as [h|h]; [exact h|exfalso]. nra.
Qed.
Lemma inputs_fin a p rho r m mp A P RHO RS MS MP :
  consistent_inputs k a p rho r m mp = Ok (A, P, RHO, RS, MS, MP) ->
  0 < A -> 0 < P -> 0 < RS -> 0 < MS -> 0 <= MP ->
  let q := option_map (map_qty Fin) in
  consistent_inputs k (q a) (q p) (q rho) (q r) (q m) (q mp) = Ok (Fin A, Fin P, Fin RHO, Fin RS, Fin MS, Fin MP).
Proof.
  assert (HG := ok_G _ kok). assert (Hg := consts_gcc_pos k kok). assert (Hpi := PI_pos).
  intros H HA HP HR HM HMP q. revert H. unfold consistent_inputs, q. rewrite !is_none_map, !opt_units_fin.
  destruct (is_none a && is_none p) eqn:Hn; [discriminate|].
  destruct (opt_to_unit mp (u_M_sun k)) as [vmp|]; [|discriminate].
  destruct (opt_to_unit a (u_R_sun k)) as [av|]; [|discriminate].
  destruct (opt_to_unit p (u_day k)) as [pv|]; [|discriminate].
  cbn [rbind rmap]. set (mp' := match vmp, av, pv with
    | Some m0, _, _ => m0 | None, Some x, _ => nzl x | None, None, Some p0 => nzl p0 | None, None, None => nlit 0 end).
  replace (match option_map Fin vmp, option_map Fin av, option_map Fin pv with
    | Some m0, _, _ => m0 | None, Some x, _ => nzl x | None, None, Some p0 => nzl p0 | None, None, None => nlit 0 end)
   with (Fin mp') by (destruct vmp, av, pv; reflexivity).

  destruct av as [av|], pv as [pv|]; cbn [option_map].
  - destruct (negb (is_none rho) || negb (is_none m)); [discriminate|].
    replace (match option_map (map_qty Fin) r with None => Ok (nlit 1) | Some q0 => to_unit q0 (u_R_sun k) end)
      with (rmap Fin (match r with None => Ok (nlit 1) | Some q0 => to_unit q0 (u_R_sun k) end))
      by (destruct r; cbn; [rewrite units_fin|]; reflexivity).
    destruct (match r with None => _ | Some _ => _ end) as [rs|]; [|discriminate].
    cbn [rbind rmap]. intro H. inversion H; subst; clear H. ff. reflexivity.
  - set (rq := if is_none r && is_none m then Some (plain (nlit 1)) else r).
    replace (if is_none r && is_none m then Some (plain (nlit 1)) else option_map (map_qty Fin) r)
      with (option_map (map_qty Fin) rq) by (unfold rq; destruct (is_none r && is_none m); reflexivity).
    set (mq := if is_none r && is_none m && is_none rho then Some (plain (nlit 1)) else m).
    replace (if is_none r && is_none m && is_none rho then Some (plain (nlit 1)) else option_map (map_qty Fin) m)
      with (option_map (map_qty Fin) mq) by (unfold mq; destruct (is_none r && is_none m && is_none rho); reflexivity).
    rewrite !is_none_map, !opt_units_fin.
    destruct (negb _); [discriminate|].
    set (rh := match rho with None => Ok None | Some q0 => match qu q0 with
        | Some _ => rmap Some (to_unit q0 (u_rho_sun k)) | None => Ok (Some (qv q0 / nlit (gcc_per_sun k)))%num end end).
    replace (match option_map (map_qty Fin) rho with None => Ok None | Some q0 => match qu q0 with
        | Some _ => rmap Some (to_unit q0 (u_rho_sun k)) | None => Ok (Some (qv q0 / nlit (gcc_per_sun k)))%num end end)
      with (rmap (option_map Fin) rh).
    2:{ unfold rh. destruct rho as [[v0 [u0|]]|]; cbn [option_map map_qty qu qv rmap]; [|ff|]; try reflexivity.
        change (Q (Fin v0) (Some u0)) with (map_qty Fin (Q v0 (Some u0))). rewrite units_fin.
        destruct (to_unit (Q v0 (Some u0)) (u_rho_sun k)); reflexivity. }
    destruct rh as [rh'|]; [|discriminate]. cbn [rmap rbind].
    destruct (opt_to_unit rq (u_R_sun k)) as [rs|]; [|discriminate].
    destruct (opt_to_unit mq (u_M_sun k)) as [ms|]; [|discriminate].
    cbn [rmap rbind].
    destruct rh' as [rho'|], rs as [rs'|], ms as [ms'|]; cbn [option_map rbind]; try discriminate; intro H.
    + inversion H; subst; clear H. ff. reflexivity.
    + inversion H; subst; clear H. destruct (third_args _ _ HM HR) as [X1 X2]. ff. reflexivity.
    + inversion H; subst; clear H. ff. reflexivity.
  - set (rq := if is_none r && is_none m then Some (plain (nlit 1)) else r).
    replace (if is_none r && is_none m then Some (plain (nlit 1)) else option_map (map_qty Fin) r)
      with (option_map (map_qty Fin) rq) by (unfold rq; destruct (is_none r && is_none m); reflexivity).
    set (mq := if is_none r && is_none m && is_none rho then Some (plain (nlit 1)) else m).
    replace (if is_none r && is_none m && is_none rho then Some (plain (nlit 1)) else option_map (map_qty Fin) m)
      with (option_map (map_qty Fin) mq) by (unfold mq; destruct (is_none r && is_none m && is_none rho); reflexivity).
    rewrite !is_none_map, !opt_units_fin.
    destruct (negb _); [discriminate|].
    set (rh := match rho with None => Ok None | Some q0 => match qu q0 with
        | Some _ => rmap Some (to_unit q0 (u_rho_sun k)) | None => Ok (Some (qv q0 / nlit (gcc_per_sun k)))%num end end).
    replace (match option_map (map_qty Fin) rho with None => Ok None | Some q0 => match qu q0 with
        | Some _ => rmap Some (to_unit q0 (u_rho_sun k)) | None => Ok (Some (qv q0 / nlit (gcc_per_sun k)))%num end end)
      with (rmap (option_map Fin) rh).
    2:{ unfold rh. destruct rho as [[v0 [u0|]]|]; cbn [option_map map_qty qu qv rmap]; [|ff|]; try reflexivity.
        change (Q (Fin v0) (Some u0)) with (map_qty Fin (Q v0 (Some u0))). rewrite units_fin.
        destruct (to_unit (Q v0 (Some u0)) (u_rho_sun k)); reflexivity. }
    destruct rh as [rh'|]; [|discriminate]. cbn [rmap rbind].
    destruct (opt_to_unit rq (u_R_sun k)) as [rs|]; [|discriminate].
    destruct (opt_to_unit mq (u_M_sun k)) as [ms|]; [|discriminate].
    cbn [rmap rbind].
    destruct rh' as [rho'|], rs as [rs'|], ms as [ms'|]; cbn [option_map rbind]; try discriminate; intro H.
    + inversion H; subst; clear H. ff. reflexivity.
    + inversion H; subst; clear H. destruct (third_args _ _ HM HR) as [X1 X2]. ff. reflexivity.
    + inversion H; subst; clear H. ff. reflexivity.
  - intro H. inv_bind H. destruct v as [[? ?] ?]. discriminate.
Qed.

Lemma lit_near r : Rabs (nlit r - r) <= u * Rabs r. Proof. apply (proj2 Acc). Qed.
Lemma mul_bound a b B : Rabs (a * b)%R <= B -> Rabs (a * b)%num <= (1 + u) * B.
Proof.
  intro H. assert (K := proj2 Acc OMul a b (a * b)%R). assert (U := proj1 Acc). cbn [nmul NRq rounded]. replace (rd OMul a b (a * b)) with ((rd OMul a b (a * b) - a * b) + a * b)%R by ring.
  eapply Rle_trans; [apply Rabs_triang|]. assert (0 <= Rabs (a * b)) by apply Rabs_pos. nra.
Qed.
Lemma ecc_signs e s : 0 <= e -> e + 4 * u < 1 -> Rabs s <= 1 + u -> 0 < (nlit 1 - e)%num /\ 0 < (nlit 1 + e)%num /\ 0 < (nlit 1 - e ^ 2)%num /\ 0 < (nlit 1 + e * s)%num.
Proof.
  intros E0 E1 Hs. assert (U := proj1 Acc). assert (L := lit_near 1). rewrite Rabs_R1 in L. apply Rabs_le_between in L. change (nlit 1 - 1)%R with ((nlit 1 : R) - 1) in L.
  assert (L1 : 1 - u <= (nlit 1 : R)) by lra. clear L.
  assert (M1 : (e ^ 2)%num <= (1 + u) * (e * e)). { cbn [npw]. assert (K := mul_bound e e (e * e) ltac:(rewrite Rabs_pos_eq; nra)). apply Rabs_le_between in K. lra. }
  assert (M2 : - ((1 + u) * (e * (1 + u))) <= (e * s)%num). { assert (K := mul_bound e s (e * (1 + u)) ltac:(rewrite Rabs_mult, (Rabs_pos_eq e) by lra; apply Rmult_le_compat_l; lra)). apply Rabs_le_between in K. lra. }
  assert (A1 : (1 + u) * (e * e) < 1 - u) by nra. assert (A2 : (1 + u) * (e * (1 + u)) < 1 - u) by nra.
  repeat split.
  - apply sgn_pos. lra.
  - apply sgn_pos. lra.
  - apply sgn_pos. lra.
  - apply sgn_pos. lra.
Qed.

Lemma omega_fin (x : kargs R) : kep_omega (fin_args x) = rmap (option_map (map_eccd Fin)) (kep_omega x).
Proof.
  unfold kep_omega, fin_args. cbn [map_args ka_ecc ka_omega ka_sin_omega ka_cos_omega].
  destruct (ka_ecc x), (ka_omega x), (ka_sin_omega x), (ka_cos_omega x); reflexivity.
Qed.
Lemma times_fin (x : kargs R) P M n : n <> 0 ->
  kep_times (fin_args x) (Fin P) (Fin M) (Fin n) = rmap (fun p => (Fin (fst p), Fin (snd p))) (kep_times x P M n).
Proof.
  intro Hn. unfold kep_times, fin_args. cbn [map_args ka_t0 ka_tper].
  destruct (ka_t0 x), (ka_tper x); cbn [option_map]; try (rewrite (f_div M n) by exact Hn); ff; reflexivity.
Qed.
Lemma args_units_fin x : kep_units (fin_args x) =
  rmap (fun p => (option_map (map_qty Fin) (fst p), option_map (map_qty Fin) (snd p))) (kep_units x).
Proof.
  unfold kep_units, fin_args. cbn [map_args ka_m_planet ka_rho_star ka_m_planet_units ka_rho_star_units].
  destruct (ka_m_planet_units x); destruct (ka_m_planet x) as [[? [?|]]|]; cbn; try reflexivity;
  destruct (ka_rho_star_units x); destruct (ka_rho_star x) as [[? [?|]]|]; reflexivity.
Qed.

Lemma init_fin (x : kargs R) o : kep_init k x = Ok o -> ka_duration x = None -> sizes o ->
  (forall e, ka_ecc x = Some e -> 0 <= e /\ e + 4 * u < 1) -> (forall s, ka_sin_omega x = Some s -> Rabs s <= 1) -> (forall b, ka_b x = Some b -> Rabs (o_cos_incl o) <= 1) ->
  kep_init k (fin_args x) = Ok (fin_orbit o).
Proof.
  intros H Hd Sz He Hs Hb. assert (Hpi := PI_pos). assert (HG := ok_G _ kok). assert (U := proj1 Acc).
  unfold kep_init in H |- *. rewrite args_units_fin.
  destruct (kep_units x) as [[mpl rho]|]; [|cbn [rbind rmap] in H; discriminate H]. cbn [rbind rmap fst snd] in *.
  rewrite (no_duration x Hd) in H. rewrite (no_duration (fin_args x)) by (unfold fin_args; cbn [map_args ka_duration]; rewrite Hd; reflexivity). cbn [rbind] in *.
  destruct (consistent_inputs k (ka_a x) (ka_period x) rho (ka_r_star x) (ka_m_star x) mpl) as [[[[[[A P] RHO] RS] MS] MP]|] eqn:E1; [|cbn [rbind rmap] in H; discriminate H].
  cbn [rbind] in H.
  destruct (kep_omega x) as [ed|] eqn:Eo; [|cbn [rbind rmap] in H; discriminate H]. cbn [rbind] in H.
  match type of H with context [kep_incl k x None ed ?f ?g A P ?h RS] => set (dc := g) in *; set (apl := h) in *; set (fac := f) in * end.
  destruct (kep_incl k x None ed fac dc A P apl RS) as [[[[b ci] inc] durattr]|] eqn:Ei; [|cbn [rbind rmap] in H; discriminate H]. cbn [rbind] in H.
  match type of H with context [kep_times x P ?m ?n] => set (M0 := m) in *; set (n0 := n) in * end.
  destruct (kep_times x P M0 n0) as [[t0 tp]|] eqn:Et; [|cbn [rbind rmap] in H; discriminate H]. cbn [rbind] in H.
  apply Ok_inj in H. subst o. destruct Sz as (pa & pp & pr & pm & pmp). cbn in pa, pp, pr, pm, pmp, Hb.
  assert (CI := inputs_fin _ _ _ _ _ _ _ _ _ _ _ _ E1 pa pp pr pm pmp). cbv zeta in CI.
  change (ka_period (fin_args x)) with (option_map (map_qty Fin) (ka_period x)). change (ka_a (fin_args x)) with (option_map (map_qty Fin) (ka_a x)). change (ka_r_star (fin_args x)) with (option_map (map_qty Fin) (ka_r_star x)).
  change (ka_m_star (fin_args x)) with (option_map (map_qty Fin) (ka_m_star x)).
  rewrite CI. cbn [rbind]. rewrite omega_fin, Eo. cbn [rbind rmap].
  assert (Sg : forall d, ed = Some d -> 0 < (nlit 1 - e_ecc d)%num /\ 0 < (nlit 1 + e_ecc d)%num /\ 0 < (nlit 1 - e_ecc d ^ 2)%num /\ 0 < (nlit 1 + e_ecc d * e_sinw d)%num).
  { intros d Ed. subst ed. revert Eo. unfold kep_omega. destruct (ka_ecc x) as [e|] eqn:Ee; [|discriminate]. destruct (He e eq_refl) as [E0 E4].
    destruct (ka_omega x) as [w|].
    - destruct (_ && _); [discriminate|]. intro Q. injection Q as <-. cbn [e_ecc e_sinw]. apply ecc_signs; [assumption|assumption|].
      cbn [nsin NRq rounded]. apply (rd_trig u rd Acc OSin), sin_le.
    - destruct (ka_sin_omega x) as [s|] eqn:Es; [|discriminate]. destruct (ka_cos_omega x) as [c|]; [|discriminate]. intro Q. injection Q as <-. cbn [e_ecc e_sinw]. apply ecc_signs; [assumption|assumption|].
      specialize (Hs s eq_refl). lra. }
  assert (Hmt : 0 < (MS + MP)%num) by pos.
  assert (Hn0 : 0 < n0) by (unfold n0; pos).
  assert (En : (nlit 2 * nlit PI / Fin P)%num = Fin n0) by (ff; reflexivity).
  rewrite !En. 
  assert (Efac : match option_map (map_eccd Fin) ed with
     | None => (#1)%num
     | Some d => ((#1 + e_ecc d * e_sinw d) / (#1 - e_ecc d ^ 2))%num end = Fin fac).
  { unfold fac. destruct ed as [d|]; cbn [option_map map_eccd e_ecc e_sinw]; [|reflexivity]. destruct (Sg d eq_refl) as (_ & _ & Q1 & Q2). ff. reflexivity. }
  rewrite !Efac.
  assert (Hfac : 0 < fac).
  { unfold fac. destruct ed as [d|]; [|pos]. destruct (Sg d eq_refl) as (_ & _ & Q1 & Q2). pos. }
  assert (Eap : (- Fin A * Fin MS / (Fin MS + Fin MP))%num = Fin apl) by (unfold apl; ff; reflexivity).
  assert (Edc : (Fin fac * Fin RS / Fin A)%num = Fin dc) by (unfold dc; ff; reflexivity).
  assert (Hdc : 0 < dc) by (unfold dc; pos).
  rewrite !Eap, !Edc.
  assert (EM0 : match option_map (map_eccd Fin) ed with
     | None => (nlit 0.5 * nlit PI + nzl (Fin n0))%num | Some d => kep_M0 d end = Fin M0).
  { unfold M0. destruct ed as [d|]; cbn [option_map]; [|ff; reflexivity]. destruct (Sg d eq_refl) as (Q3 & Q4 & Q1 & Q2).
    unfold kep_M0. cbn [map_eccd e_ecc e_cosw e_sinw]. ff. reflexivity. }
  rewrite !EM0.
  assert (Incl : kep_incl k (fin_args x) None (option_map (map_eccd Fin) ed)
      (Fin fac) (Fin dc) (Fin A) (Fin P) (Fin apl) (Fin RS) = Ok (Fin b, Fin ci, Fin inc, option_map Fin durattr)).
  { revert Ei. unfold kep_incl, fin_args. cbn [map_args ka_b ka_incl]. rewrite !is_none_map.
    destruct (ka_b x) as [b0|]; cbn [option_map].
    { destruct (negb _ || negb _); [discriminate|]. intro E. apply Ok_inj in E. inversion E; subst. specialize (Hb b eq_refl). apply Rabs_le_between in Hb.
      ff. rewrite f_acos by assumption. reflexivity. }
    destruct (ka_incl x) as [i0|]; cbn [option_map is_none negb].
    { intro E. apply Ok_inj in E. inversion E; subst. ff. reflexivity. }
    intro E. apply Ok_inj in E. inversion E; subst. ff. reflexivity. }
  rewrite Incl. cbn [rbind].
  rewrite times_fin by lra. rewrite Et. cbn [rmap rbind fst snd].
  apply (f_equal (@Ok (orbit fl))). unfold fin_orbit, map_orbit. cbn [o_a o_period o_rho_star o_r_star o_m_star o_m_planet o_m_total o_n o_a_star
    o_a_planet o_K0 o_Omega o_ecc o_M0 o_dcosidb o_b o_cos_incl o_incl o_sin_incl o_t0 o_tper o_tref o_jac o_duration].
  change (ka_Omega (fin_args x)) with (option_map Fin (ka_Omega x)). clearbody n0 fac apl dc M0.
  destruct ed as [d|].
  - destruct (Sg d eq_refl) as (Q3 & Q4 & Q1 & Q2). destruct (ka_Omega x) as [w|]; cbn [option_map map_eccd map_omgd e_ecc e_omega e_cosw e_sinw O_Omega O_cos O_sin]; ff; reflexivity.
  - destruct (ka_Omega x) as [w|]; cbn [option_map map_eccd map_omgd e_ecc e_omega e_cosw e_sinw O_Omega O_cos O_sin]; ff; reflexivity.
Qed.
End S.
