(** * Planets of a system are independent *)
From Coq Require Import Reals List Bool Arith Lia.
From Verif Require Import Num CoreOps Inst M_units M_kepler M_fin M_tensor Spec_orbit Spec_params Spec_array
  L_tens L_shape L_transit3.
Import ListNotations.

Section S.
Variables (n N : nat).
Variables (m j : nat).
Definition II : idx := sqz_ix [n; N] (at_squeezed n N m j).

Lemma II0 (Hj : (j < n)%nat) : II O = j.
Proof.
  unfold II, sqz_ix, at_squeezed. cbn [nth_error sqz_count].
  destruct (Nat.eqb_spec n 1); [lia|]. destruct (Nat.eqb N 1); reflexivity.
Qed.
Lemma II1 (Hm : (m < N)%nat) : II 1%nat = m.
Proof.
  unfold II, sqz_ix, at_squeezed. cbn [nth_error sqz_count].
  destruct (Nat.eqb_spec N 1); [lia|]. destruct (Nat.eqb_spec n 1); reflexivity.
Qed.
Lemma asqz_at {A} (X : arr A) : EN n N X -> aget (asqz X) (at_squeezed n N m j) = aget X II.
Proof. unfold EN, asqz. cbn [aget]. intros ->. reflexivity. Qed.
Lemma asqz_sh {A} (X : arr A) : EN n N X -> ash (asqz X) = Ok (squeezed [n; N]).
Proof. unfold EN, asqz. cbn [ash]. intros ->. reflexivity. Qed.

Lemma time_at (Hm : (m < N)%nat) (t : tens) : is_vector N t -> aget t (fun d => II (S d)) = aget t (at_time m).
Proof.
  intros [W E]. apply (W _ E). intros d Hd. destruct d as [|d]; [exact (II1 Hm)|]. destruct d; cbn in Hd; contradiction.
Qed.
Lemma args_at_wf (x : kargs tens) i : planet_args n x -> args_at i x = args_at (at_planet (i O)) x.
Proof.
  intro P. destruct P. unfold args_at, map_args.
  rewrite (qty_at n (ka_period x) i (qpp_sn n _ pl_period)), (qty_at n (ka_a x) i (qpp_sn n _ pl_a)),
    (qty_at n (ka_duration x) i (qpp_sn n _ pl_duration)), (qty_at n (ka_m_planet x) i (qpp_sn n _ pl_mp)),
    (qty_at n (ka_m_star x) i (qpp_sn n _ pl_ms)), (qty_at n (ka_r_star x) i (qpp_sn n _ pl_rs)),
    (qty_at n (ka_rho_star x) i (qpp_sn n _ pl_rho)), (opt_at n (ka_t0 x) i (opp_sn n _ pl_t0)),
    (opt_at n (ka_tper x) i (opp_sn n _ pl_tper)), (opt_at n (ka_incl x) i (opp_sn n _ pl_incl)),
    (opt_at n (ka_b x) i (opp_sn n _ pl_b)), (opt_at n (ka_ecc x) i (opp_sn n _ pl_ecc)),
    (opt_at n (ka_omega x) i (opp_sn n _ pl_omega)), (opt_at n (ka_sin_omega x) i (opp_sn n _ pl_sin)),
    (opt_at n (ka_cos_omega x) i (opp_sn n _ pl_cos)), (opt_at n (ka_Omega x) i (opp_sn n _ pl_Omega)),
    (opt_at n (ka_ror x) i (opp_sn n _ pl_ror)).
  reflexivity.
Qed.
End S.

Lemma sqz3_unf {T B} {M : Num T B} (v : T * T * T) : sqz3 v = (nsqz (fst (fst v)), nsqz (snd (fst v)), nsqz (snd v)).
Proof. destruct v as [[? ?] ?]. reflexivity. Qed.
Lemma sqz3_F (v : fl * fl * fl) : sqz3 v = v.
Proof. destruct v as [[? ?] ?]. reflexivity. Qed.

Section T.
Variables (k : consts) (n N : nat) (x : kargs tens) (o : orbit tens) (t : tens).
Hypothesis Px : planet_args n x.
Hypothesis Hx : kep_init k x = Ok o.
Hypothesis Ht : is_vector N t.

Lemma planet_orbit i : kep_init k (args_at (at_planet (i O)) x) = Ok (orbit_at i o).
Proof. rewrite <- (args_at_wf n x i Px), kep_init_at, Hx. reflexivity. Qed.

Let So := proj1 (kep_init_sn n k x o Px Hx).
Let Eno := proj1 (proj2 (kep_init_sn n k x o Px Hx)).

Lemma warp_T1 t0 : ash t0 = Ok [N] -> T1 n N (kep_warp o true t0).
Proof. intro E. apply (T1_map2l n N fsub); [apply padr_T1; exact E|apply (os_t0 _ _ So)]. Qed.
Lemma warp_EN t0 : EN n N t0 -> EN n N (kep_warp o false t0).
Proof. intro E. apply (EN_map2l n N fsub); [exact E|apply (os_t0 _ _ So)]. Qed.

(** a family of results, one per planet *)
Lemma table3 (V : tens * tens * tens) (f : nat -> nat -> fl * fl * fl) :
  EN n N (fst (fst V)) /\ EN n N (snd (fst V)) /\ EN n N (snd V) ->
  (forall m j, (m < N)%nat -> (j < n)%nat -> vec_at (II n N m j) V = f m j) ->
  is_table3 n N (sqz3 V) f.
Proof.
  intros (E1 & E2 & E3) Hf. rewrite sqz3_unf. unfold is_table3, is_table. cbn [fst snd].
  change (@nsqz tens btens NumT) with (@asqz fl).
  split; [|split]; (split; [apply asqz_sh; assumption|intros m j Hm Hj]); (rewrite asqz_at by assumption);
    rewrite <- (Hf m j Hm Hj); destruct V as [[? ?] ?]; reflexivity.
Qed.

Variable fo : nat -> orbit fl.
Hypothesis Hfo : forall j, (j < n)%nat -> kep_init k (args_at (at_planet j) x) = Ok (fo j).

Lemma fo_at m j : (m < N)%nat -> (j < n)%nat -> orbit_at (II n N m j) o = fo j.
Proof.
  intros Hm Hj. assert (E := planet_orbit (II n N m j)). rewrite (II0 n N m j Hj) in E.
  rewrite (Hfo j Hj) in E. injection E. intro E'. symmetry. exact E'.
Qed.

Lemma par_at m j (par : option tens) : (m < N)%nat -> (j < n)%nat -> opt_per_planet n par ->
  option_map (fun a : tens => aget a (II n N m j)) par = opt_at_planet j par.
Proof. intros Hm Hj Hp. rewrite (opt_at n par _ (opp_sn n _ Hp)), (II0 n N m j Hj). reflexivity. Qed.

Lemma pos_table b par ld : opt_per_planet n par ->
  is_table3 n N (pos k o b t par ld) (fun m j => pos k (fo j) b (aget t (at_time m)) (opt_at_planet j par) ld).
Proof.
  intro Hp. assert (Sp := opp_sn n _ Hp).
  assert (G : forall a a' : tens, Sn n a -> (forall m j, (m < N)%nat -> (j < n)%nat -> True) ->
    is_table3 n N (sqz3 (get_position k o (kep_warp o) a t par ld true))
      (fun m j => get_position k (fo j) (kep_warp (fo j)) (aget a (II n N m j)) (aget t (at_time m)) (opt_at_planet j par) ld true)).
  { intros a _ Ha _. apply table3.
    - apply (pos_shape n N k o So Eno (kep_warp o) warp_T1 warp_EN a t par ld Ha Sp (proj2 Ht) _ eq_refl).
    - intros m j Hm Hj. unfold vec_at.
      rewrite (get_position_at k (II n N m j) o (kep_warp o) (kep_warp (orbit_at (II n N m j) o)) (kep_warp_at1 o (II n N m j)) (kep_warp_at0 o (II n N m j))).
      rewrite (fo_at m j Hm Hj), (time_at n N m j Hm t Ht), (par_at m j par Hm Hj Hp). reflexivity. }
  assert (Q : forall (f : orbit tens -> tens) (f' : orbit fl -> fl), Sn n (f o) -> (forall i, aget (f o) i = f' (orbit_at i o)) ->
    is_table3 n N (sqz3 (get_position k o (kep_warp o) (f o) t par ld true))
      (fun m j => sqz3 (get_position k (fo j) (kep_warp (fo j)) (f' (fo j)) (aget t (at_time m)) (opt_at_planet j par) ld true))).
  { intros f f' Sf Ef. assert (G' := G (f o) (f o) Sf (fun _ _ _ _ => I)).
    destruct G' as ((A1 & A2) & (B1 & B2) & (C1 & C2)).
    split; [|split]; (split; [assumption|intros m j Hm Hj]); [rewrite A2 by assumption|rewrite B2 by assumption|rewrite C2 by assumption];
      rewrite sqz3_F, Ef, (fo_at m j Hm Hj); reflexivity. }
  destruct b; unfold pos, get_planet_position, get_star_position, get_relative_position.
  - apply (Q (fun o => o_a_planet o) (fun o => o_a_planet o)); [apply (os_ap _ _ So)|reflexivity].
  - apply (Q (fun o => o_a_star o) (fun o => o_a_star o)); [apply (os_as _ _ So)|reflexivity].
  - apply (Q (fun o => (- o_a o)%num) (fun o => (- o_a o)%num)); [apply (Sn_map n fneg), (os_a _ _ So)|reflexivity].
Qed.

Lemma vel_table b : is_table3 n N (vel o b t) (fun m j => vel (fo j) b (aget t (at_time m))).
Proof.
  assert (Q : forall (f : orbit tens -> tens) (f' : orbit fl -> fl), Sn n (f o) -> (forall i, aget (f o) i = f' (orbit_at i o)) ->
    is_table3 n N (sqz3 (get_velocity o (kep_warp o) (f o) t))
      (fun m j => sqz3 (get_velocity (fo j) (kep_warp (fo j)) (f' (fo j)) (aget t (at_time m))))).
  { intros f f' Sf Ef. apply table3.
    - apply (vel_shape n N o So Eno (kep_warp o) warp_T1 warp_EN (f o) t Sf (proj2 Ht) _ eq_refl).
    - intros m j Hm Hj. unfold vec_at. 
      rewrite (vel_at (II n N m j) o (kep_warp o) (kep_warp (orbit_at (II n N m j) o)) (kep_warp_at1 o (II n N m j)) (kep_warp_at0 o (II n N m j))).
      rewrite sqz3_F, Ef, (fo_at m j Hm Hj), (time_at n N m j Hm t Ht). reflexivity. }
  destruct b; unfold vel, get_planet_velocity, get_star_velocity, get_relative_velocity.
  - apply (Q (fun o => (- o_m_star o)%num) (fun o => (- o_m_star o)%num)); [apply (Sn_map n fneg), (os_ms _ _ So)|reflexivity].
  - apply (Q (fun o => o_m_planet o) (fun o => o_m_planet o)); [apply (os_mp _ _ So)|reflexivity].
  - apply (Q (fun o => (- o_m_total o)%num) (fun o => (- o_m_total o)%num)); [apply (Sn_map n fneg), (os_mt _ _ So)|reflexivity].
Qed.

Lemma acc_table b : is_table3 n N (acc o b t) (fun m j => acc (fo j) b (aget t (at_time m))).
Proof.
  assert (Q : forall (f h : orbit tens -> tens) (f' h' : orbit fl -> fl), Sn n (f o) -> (forall i, aget (f o) i = f' (orbit_at i o)) ->
    Sn n (h o) -> (forall i, aget (h o) i = h' (orbit_at i o)) ->
    is_table3 n N (sqz3 (get_acceleration o (kep_warp o) (f o) (h o) t))
      (fun m j => sqz3 (get_acceleration (fo j) (kep_warp (fo j)) (f' (fo j)) (h' (fo j)) (aget t (at_time m))))).
  { intros f h f' h' Sf Ef Sh Eh. apply table3.
    - apply (acc_shape n N o So Eno (kep_warp o) warp_T1 warp_EN (f o) (h o) t Sf Sh (proj2 Ht) _ eq_refl).
    - intros m j Hm Hj. unfold vec_at. 
      rewrite (acc_at (II n N m j) o (kep_warp o) (kep_warp (orbit_at (II n N m j) o)) (kep_warp_at1 o (II n N m j)) (kep_warp_at0 o (II n N m j))).
      rewrite sqz3_F, Ef, Eh, (fo_at m j Hm Hj), (time_at n N m j Hm t Ht). reflexivity. }
  destruct b; unfold acc, get_planet_acceleration, get_star_acceleration, get_relative_acceleration.
  - apply (Q (fun o => o_a_planet o) (fun o => (- o_m_star o)%num) (fun o => o_a_planet o) (fun o => (- o_m_star o)%num));
      [apply (os_ap _ _ So)|reflexivity|apply (Sn_map n fneg), (os_ms _ _ So)|reflexivity].
  - apply (Q (fun o => o_a_star o) (fun o => o_m_planet o) (fun o => o_a_star o) (fun o => o_m_planet o));
      [apply (os_as _ _ So)|reflexivity|apply (os_mp _ _ So)|reflexivity].
  - apply (Q (fun o => (- o_a o)%num) (fun o => (- o_m_total o)%num) (fun o => (- o_a o)%num) (fun o => (- o_m_total o)%num));
      [apply (Sn_map n fneg), (os_a _ _ So)|reflexivity|apply (Sn_map n fneg), (os_mt _ _ So)|reflexivity].
Qed.

Lemma rv_table K u X : opt_per_planet n K -> get_radial_velocity k o (kep_warp o) t K u = Ok X ->
  exists f, is_table n N X f /\ forall m j, (m < N)%nat -> (j < n)%nat ->
    get_radial_velocity k (fo j) (kep_warp (fo j)) (aget t (at_time m)) (opt_at_planet j K) u = Ok (f m j).
Proof.
  intros HK H. unfold get_radial_velocity in *. destruct K as [K|].
  - cbn in HK. apply pp_sn in HK. assert (TS := ta_shape n N o So Eno (kep_warp o) warp_T1 warp_EN true t (proj2 Ht)).
    assert (TA := fun m j => ta_at (II n N m j) o (kep_warp o) (kep_warp (orbit_at (II n N m j) o)) (kep_warp_at1 o (II n N m j)) (kep_warp_at0 o (II n N m j)) true t).
    destruct (true_anomaly o (kep_warp o) true t) as [s c]. cbn [fst snd] in TS. destruct TS as [TS TC].
    injection H. intro HX. subst X. clear H. assert (S9 := os_ecc _ _ So).
    exists (fun m j => let (sinf, cosf) := true_anomaly (fo j) (kep_warp (fo j)) true (aget t (at_time m)) in
       match o_ecc (fo j) with
       | None => nsqz (aget K (at_planet j) * cosf)%num
       | Some d => nsqz (aget K (at_planet j) * (e_cosw d * cosf - e_sinw d * sinf + e_ecc d * e_cosw d))%num
       end). split.
    + assert (KA : forall m j, (j < n)%nat -> aget K (II n N m j) = aget K (at_planet j)).
      { intros m j Hj. rewrite (sn_at n K _ HK), (II0 n N m j Hj). reflexivity. }
      destruct (o_ecc o) as [d|] eqn:Eo.
      * destruct S9 as (S91 & S92 & S93). assert (E : EN n N (K * (e_cosw d * c - e_sinw d * s + e_ecc d * e_cosw d))%num).
        { apply EN_map2r; [assumption|]. apply EN_map2l; [|apply Sn_map2; assumption]. apply EN_map2; (apply EN_map2r; assumption). }
        split; [apply (asqz_sh n N _ E)|]. intros m j Hm Hj. refine (eq_trans (asqz_at n N m j _ E) _).
        rewrite <- (fo_at m j Hm Hj), <- (time_at n N m j Hm t Ht). specialize (TA m j). cbv beta iota in TA. rewrite <- TA.
        unfold orbit_at. cbn [map_orbit o_ecc]. rewrite Eo. cbn [option_map map_eccd e_ecc e_cosw e_sinw]. rewrite <- (KA m j Hj). reflexivity.
      * assert (E : EN n N (K * c)%num) by (apply EN_map2r; assumption).
        split; [apply (asqz_sh n N _ E)|]. intros m j Hm Hj. refine (eq_trans (asqz_at n N m j _ E) _).
        rewrite <- (fo_at m j Hm Hj), <- (time_at n N m j Hm t Ht). specialize (TA m j). cbv beta iota in TA. rewrite <- TA.
        unfold orbit_at. cbn [map_orbit o_ecc]. rewrite Eo. cbn [option_map]. rewrite <- (KA m j Hj). reflexivity.
    + intros m j Hm Hj. cbn [opt_at_planet option_map]. destruct (true_anomaly (fo j) _ true _). reflexivity.
  - destruct (uto (u_Rsun_per_day k) _) as [c|] eqn:Eu; [|discriminate H]. cbn [rbind] in *.
    assert (V := vel_table Star). unfold vel in V. destruct (get_star_velocity o (kep_warp o) t) as [[vx0 vy0] vz0].
    injection H. intro HX. subst X. clear H. destruct V as (_ & _ & V1 & V2). cbn [snd] in V1, V2.
    exists (fun m j => (nlit (- c) * snd (get_star_velocity (fo j) (kep_warp (fo j)) (aget t (at_time m))))%num). split.
    + split; [cbn; rewrite V1; reflexivity|]. intros m j Hm Hj. rewrite <- (V2 m j Hm Hj). reflexivity.
    + intros m j Hm Hj. cbn [opt_at_planet option_map]. destruct (get_star_velocity (fo j) _ _) as [[? ?] ?]. reflexivity.
Qed.
Lemma angles_table par ld : opt_per_planet n par ->
  let '(rho, th) := get_relative_angles k o (kep_warp o) t par ld in
  is_table n N rho (fun m j => fst (get_relative_angles k (fo j) (kep_warp (fo j)) (aget t (at_time m)) (opt_at_planet j par) ld)) /\
  is_table n N th (fun m j => snd (get_relative_angles k (fo j) (kep_warp (fo j)) (aget t (at_time m)) (opt_at_planet j par) ld)).
Proof.
  intro Hp. assert (Sp := opp_sn n _ Hp). unfold get_relative_angles.
  assert (Sa : Sn n (- o_a o)%num) by apply (Sn_map n fneg), (os_a _ _ So).
  assert (Sh := pos_shape n N k o So Eno (kep_warp o) warp_T1 warp_EN (- o_a o)%num t par ld Sa Sp (proj2 Ht) _ eq_refl).
  assert (E : forall m j, (m < N)%nat -> (j < n)%nat ->
     vec_at (II n N m j) (get_position k o (kep_warp o) (- o_a o)%num t par ld true)
     = get_position k (fo j) (kep_warp (fo j)) (- o_a (fo j))%num (aget t (at_time m)) (opt_at_planet j par) ld true).
  { intros m j Hm Hj. unfold vec_at.
    rewrite (get_position_at k (II n N m j) o (kep_warp o) (kep_warp (orbit_at (II n N m j) o)) (kep_warp_at1 o (II n N m j)) (kep_warp_at0 o (II n N m j))).
    rewrite (fo_at m j Hm Hj), (time_at n N m j Hm t Ht), (par_at m j par Hm Hj Hp), <- (fo_at m j Hm Hj). reflexivity. }
  destruct (get_position k o (kep_warp o) (- o_a o)%num t par ld true) as [[X Y] Z]. cbn [fst snd] in Sh. destruct Sh as (SX & SY & SZ).
  assert (E1 : EN n N (nsqrt (X ^ 2 + Y ^ 2))%num) by (apply EN_map; apply EN_map2; apply EN_map2; assumption).
  assert (E2 : EN n N (natan2 Y X)) by (apply EN_map2; assumption).
  split; (split; [first [exact (asqz_sh n N _ E1)|exact (asqz_sh n N _ E2)]|]); intros m j Hm Hj; specialize (E m j Hm Hj);
    destruct (get_position k (fo j) (kep_warp (fo j)) _ _ _ _ _) as [[X' Y'] Z']; cbn [vec_at] in E; injection E as EX EY EZ; cbn [fst snd];
    rewrite <- EX, <- EY.
  { refine (eq_trans (asqz_at n N m j _ E1) _). reflexivity. }
  { refine (eq_trans (asqz_at n N m j _ E2) _). reflexivity. }
Qed.
End T.
