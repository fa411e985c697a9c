(** * Light curves with light-travel time *)
From Coq Require Import Reals List Bool Arith ZArith Lra Lia Psatz.
From Verif Require Import Num CoreOps Inst CoreFlux M_units M_kepler M_fin M_tensor M_simple M_ttv M_limbdark M_secondary
  Spec_orbit Spec_params Spec_array Spec_light Spec_secondary Spec_delay Ex_orbit Ex_system
  L_real L_kepop L_orbit L_params3 L_fl L_fl2 L_fl3 L_fl4 L_tens L_shape L_shapeS L_transit3 L_transit5 L_transit6 L_array L_motion L_pmotion L_pmotion3 L_pmotion4 L_pmotion5
  L_reshape L_light1 L_light4 L_light5 L_light7 L_light8 L_light9 L_transit4 L_second L_second2 L_delay.
Import ListNotations.
Local Notation length := List.length.
Open Scope R_scope.

Lemma delay_answers k n x xs os o cp : consts_ok k -> system k n x xs os -> kep_init k x = Ok o -> (forall j, (j < n)%nat -> slow k (os j)) ->
  answers (kep_api k cp o) true n (fun j t => pos k (os j) Relative t None true).
Proof.
  intros kok sys Ho Sl. destruct (system_orbit k n x xs os kok sys) as (o' & Ho' & So & Eno & Epo & Oat). rewrite Ho in Ho'. apply Ok_inj in Ho'. subst o'.
  intros s t ts Et Wt Vt. cbn [oa_pos kep_api]. unfold get_relative_position.
  assert (Sa : Sn n (- o_a o)%num) by apply (Sn_map n fneg), (os_a _ _ So).
  assert (W1 : forall t0, ash t0 = Ok s -> T1S n s (kep_warp o true t0)).
  { intros t0 E. apply (T1S_map2l n s fsub); [apply padr_T1S; exact E|apply (os_t0 _ _ So)]. }
  assert (W0 : forall t0, ENS n s t0 -> ENS n s (kep_warp o false t0)).
  { intros t0 E. apply (ENS_map2l n s fsub); [exact E|apply (os_t0 _ _ So)]. }
  assert (Sh := pos_shapeS n s k o So Eno (kep_warp o) W1 W0 (- o_a o)%num t None true Sa I Et _ eq_refl).
  assert (Va := fun i => get_position_at k i o (kep_warp o) (kep_warp (orbit_at i o)) (kep_warp_at1 o i) (kep_warp_at0 o i) (- o_a o)%num t None true true).
  destruct (get_position k o (kep_warp o) (- o_a o)%num t None true true) as [[X Y] Z]. cbn [fst snd] in Sh. destruct Sh as (SX & SY & SZ).
  exists (asqz X), (asqz Y), (asqz Z), (squeezed (n :: s)). split; [reflexivity|].
  apply (answers_of n s t ts X Y Z (fun j t => pos k (os j) Relative t None true) Et Wt Vt SX SY SZ).
  intros i tt Hi Htt. specialize (Va i). rewrite (Oat i Hi) in Va. rewrite Htt in Va.
  assert (F := delayed_fin k kok (xs (i O)) (os (i O)) (sy_init _ _ _ _ _ sys _ Hi) (sy_phys _ _ _ _ _ sys _ Hi) (Sl _ Hi) Relative tt None I).
  unfold pos, get_relative_position in F. rewrite sqz3_F in F.
  cbn [pos]. unfold get_relative_position. rewrite <- F. etransitivity; [exact Va|]. cbn [option_map].
  replace (aget (- o_a o)%num i) with (- o_a (fin_orbit (os (i O))))%num; [reflexivity|]. rewrite <- (Oat i Hi). reflexivity.
Qed.

Section L.
Variables (k : consts) (n : nat) (x : kargs tens) (xs : nat -> kargs R) (os : nat -> orbit R) (o : orbit tens).
Hypothesis kok : consts_ok k.
Hypothesis sys : system k n x xs os.
Hypothesis Ho : kep_init k x = Ok o.
Hypothesis Sl : forall j, (j < n)%nat -> slow k (os j).

Lemma delay_light_S u1 u2 cp r rs N t ts os' order : disk_flux u1 u2 <> 0 -> elements n r rs ->
  is_vector N t -> (forall m, (m < N)%nat -> aget t (at_time m) = Fin (ts m)) ->
  exists X, get_light_curve (ld_init (Fin u1) (Fin u2)) (Some (kep_api k cp o)) (Some r) (Some t) None os' order None true = Ok X /\
    light_table n N X (fun m j => flux_at u1 u2 (pos k (os j) Relative (ts m) None true) (rs j) (o_r_star (os j))).
Proof.
  intros D Hr Ht Hts. rewrite (proj1 (lc_default _ _ _ _ _ _ _)). assert (A := delay_answers k n x xs os o cp kok sys Ho Sl). destruct (kepler_answers k n x xs os o cp kok sys Ho) as [_ B].
  apply (lc_plain u1 u2 _ true n _ _ r rs N t ts os' order D A B); try assumption.
  intros j Hj. assert (P := ph_r_star _ (sy_phys _ _ _ _ _ sys j Hj)). lra.
Qed.
Lemma delay_exposed_S u1 u2 cp r rs N t ts e es os' order nodes weights : disk_flux u1 u2 <> 0 -> elements n r rs ->
  is_vector N t -> (forall m, (m < N)%nat -> aget t (at_time m) = Fin (ts m)) -> exposures N e es -> stencil os' order = Ok (nodes, weights) ->
  exists X, get_light_curve (ld_init (Fin u1) (Fin u2)) (Some (kep_api k cp o)) (Some r) (Some t) (Some e) os' order None true = Ok X /\
    light_table n N X (fun m j => node_mean nodes weights (fun u => flux_at u1 u2 (pos k (os j) Relative u None true) (rs j) (o_r_star (os j))) (ts m) (es m)).
Proof.
  intros D Hr Ht Hts He St. rewrite (proj1 (lc_default _ _ _ _ _ _ _)). assert (A := delay_answers k n x xs os o cp kok sys Ho Sl). destruct (kepler_answers k n x xs os o cp kok sys Ho) as [_ B].
  apply (lc_exposed u1 u2 _ true n _ _ r rs N t ts e es os' order nodes weights D A B); try assumption.
  intros j Hj. assert (P := ph_r_star _ (sy_phys _ _ _ _ _ sys j Hj)). lra.
Qed.
End L.

(** ** the flipped orbit *)
Lemma flip_slow k x o r o2 : consts_ok k -> kep_init k x = Ok o -> physical o -> 0 < r -> flip k o r = Ok o2 -> slow k o -> slow k o2.
Proof.
  intros kok H Hp Hr Hf Hs. destruct (flip_init k x o r kok H Hp Hr) as (o' & E1 & E2 & E3 & E4 & E5 & E6 & E7 & E8 & E9 & E10 & E11).
  rewrite Hf in E1. apply Ok_inj in E1. subst o'. unfold slow, peak_speed in *. rewrite E3, E4.
  replace (ecc_of o2) with (ecc_of o); [exact Hs|]. unfold ecc_of. destruct (o_ecc o); [destruct E11 as [_ ->]|destruct E11 as [-> _]]; reflexivity.
Qed.
Lemma flip_position k x o r o2 t : consts_ok k -> kep_init k x = Ok o -> physical o -> 0 < r -> flip k o r = Ok o2 ->
  pos k o2 Relative t None false = opposite (pos k o Relative t None false).
Proof.
  intros kok H Hp Hr Hf. destruct (flip_init k x o r kok H Hp Hr) as (o' & E1 & E2 & E3 & _).
  rewrite Hf in E1. apply Ok_inj in E1. subst o'. assert (Hf' := Hf). unfold flip in Hf'.
  cbn [pos]. rewrite (rel_pos k kok _ _ Hf' E2), (rel_pos k kok _ _ H Hp).
  destruct (flip_lin k _ _ _ _ kok H Hp Hr Hf t (- o_a o2 * plxf k None)) as (-> & _). rewrite E3.
  unfold lin, opposite, vadd, vscale, vx, vy, vz. cbn. apply vec_eq; ring.
Qed.
Lemma eclipse_shift : forall k (x : kargs R) o r o2 t, consts_ok k -> kep_init k x = Ok o -> physical o -> slow k o -> 0 < r -> flip k o r = Ok o2 ->
  let z u := vz (pos k o Relative u None false) in
  exists d g, pos k o2 Relative t None true = opposite (pos k o Relative (t - d) None false) /\
    5 / 7 <= g <= 10 / 3 /\ c_light k * d = g * z t /\ 4 * Rabs d < o_period o /\
    Rabs (c_light k * d - z (t - d))
      <= o_a o * ((2 * PI / o_period o) * (2 * PI / o_period o)) / ((1 - ecc_of o) * (1 - ecc_of o)) * (d * d).
Proof.
  intros k x o r o2 t kok H Hp Hs Hr Hf z. assert (Hs2 := flip_slow k x o r o2 kok H Hp Hr Hf Hs).
  destruct (flip_init k x o r kok H Hp Hr) as (o' & E1 & E2 & E3 & E4 & E5 & E6 & E7 & E8 & E9 & E10 & E11).
  rewrite Hf in E1. apply Ok_inj in E1. subst o'.
  assert (Ee : ecc_of o2 = ecc_of o) by (unfold ecc_of; destruct (o_ecc o); [destruct E11 as [_ ->]|destruct E11 as [-> _]]; reflexivity).
  assert (Hf' := Hf). unfold flip in Hf'.
  destruct (delay_law k _ o2 Relative t None kok Hf' E2 Hs2 I) as (d & g & P & G1 & G2 & G3 & G4).
  exists d, g. rewrite P, (flip_position k x o r o2 (t - d) kok H Hp Hr Hf). split; [reflexivity|]. split; [exact G1|].
  assert (Ez : forall u, vz (pos k o2 Relative u None false) = - z u).
  { intro u. rewrite (flip_position k x o r o2 u kok H Hp Hr Hf). unfold opposite, vz, z. cbn. reflexivity. }
  rewrite !Ez, E3, E4, Ee in *. split; [lra|]. split; [exact G3|]. rewrite Ropp_involutive in G4. exact G4.
Qed.
(** the light of a planet behind the star arrives late; the code shows it early *)
Lemma eclipse_wrong : forall k (x : kargs R) o r o2 t, consts_ok k -> kep_init k x = Ok o -> physical o -> slow k o -> 0 < r -> flip k o r = Ok o2 ->
  vz (pos k o Relative t None false) < 0 ->
  forall d, 0 <= d <= 3 / 4 * o_period o -> pos k o2 Relative t None true <> opposite (pos k o Relative (t - d) None false).
Proof.
  intros k x o r o2 t kok H Hp Hs Hr Hf Hz d Hd E. destruct (eclipse_shift k x o r o2 t kok H Hp Hs Hr Hf) as (d' & g & P & G1 & G2 & G3 & _).
  rewrite P in E. assert (C := ok_c _ kok). assert (HP := ph_period _ Hp).
  assert (D' : d' < 0) by (apply (Rmult_lt_reg_l (c_light k)); [exact C|]; rewrite G2; nra).
  assert (E' : pos k o Relative (t - d') None false = pos k o Relative (t - d) None false).
  { destruct (pos k o Relative (t - d') None false) as [[a1 a2] a3], (pos k o Relative (t - d) None false) as [[b1 b2] b3].
    unfold opposite, vx, vy, vz in E. cbn in E. injection E as Q1 Q2 Q3. apply vec_eq; lra. }
  destruct (returns k kok x o H Hp _ _ E') as (j & Hj). rewrite Rabs_left in G3 by exact D'.
  assert (J : 0 < IZR j < 1).
  { split; apply (Rmult_lt_reg_r (o_period o)); try exact HP; rewrite <- Hj; lra. }
  destruct J as [J1 J2]. apply (lt_IZR 0) in J1. apply (lt_IZR j 1) in J2. lia.
Qed.

Section C.
Variables (k : consts) (n : nat) (x : kargs tens) (xs : nat -> kargs R) (os : nat -> orbit R) (o : orbit tens).
Hypothesis kok : consts_ok k.
Hypothesis sys : system k n x xs os.
Hypothesis Ho : kep_init k x = Ok o.
Hypothesis Sl : forall j, (j < n)%nat -> slow k (os j).
Variables (r : tens) (rs : nat -> R).
Hypothesis Hr : planet_values n r rs.
Hypothesis Hr0 : forall j, (j < n)%nat -> 0 < rs j.

Lemma flip_each o2 os2 : system k n (flip_args o r) (fun j => flip_args (os j) (rs j)) os2 -> flip k o r = Ok o2 ->
  forall j, (j < n)%nat -> flip k (os j) (rs j) = Ok (os2 j).
Proof. intros sys2 _ j Hj. exact (sy_init _ _ _ _ _ sys2 j Hj). Qed.

Lemma delay_second_S u1 u2 v1 v2 cp s ss N t ts os' order :
  disk_flux u1 u2 <> 0 -> disk_flux v1 v2 <> 0 -> one_each n r -> one_each n (o_r_star o) ->
  planet_values n s ss -> (forall j, (j < n)%nat -> 0 <= ss j) ->
  is_vector N t -> (forall m, (m < N)%nat -> aget t (at_time m) = Fin (ts m)) ->
  exists X os2, secondary_light_curve k cp {| se_primary := ld_init (Fin u1) (Fin u2); se_secondary := ld_init (Fin v1) (Fin v2); se_ratio := s |}
      o r (Some t) None os' order None true = Ok X /\
    (forall j, (j < n)%nat -> flip k (os j) (rs j) = Ok (os2 j)) /\
    light_table n N X (fun m j =>
      mixture (flux_ratio (ss j) (rs j) (o_r_star (os j))) (flux_at u1 u2 (pos k (os j) Relative (ts m) None true) (rs j) (o_r_star (os j)))
        (flux_at v1 v2 (pos k (os2 j) Relative (ts m) None true) (o_r_star (os j)) (rs j))).
Proof.
  intros D1 D2 O1 O2 Hs Hs0 Ht Hts. destruct (flip_system k n x xs os o kok sys Ho r rs Hr Hr0) as (o2 & os2 & Hf & sys2 & F2).
  assert (Fj := flip_each o2 os2 sys2 Hf).
  assert (Sl2 : forall j, (j < n)%nat -> slow k (os2 j)).
  { intros j Hj. apply (flip_slow k (xs j) (os j) (rs j)); auto; [apply (sy_init _ _ _ _ _ sys)|apply (sy_phys _ _ _ _ _ sys)]; exact Hj. }
  destruct (delay_light_S k n x xs os o kok sys Ho Sl u1 u2 cp r rs N t ts os' order D1 (one_each_elements n r rs O1 Hr) Ht Hts) as (X1 & E1 & T1').
  destruct (delay_light_S k n _ _ os2 o2 kok sys2 Hf Sl2 v1 v2 cp (o_r_star o) _ N t ts os' order D2 (one_each_elements n _ _ O2 (rstar_numbers k n x xs os o kok sys Ho)) Ht Hts) as (X2 & E2 & T2).
  destruct (mixed k n x xs os o kok sys Ho r rs Hr Hr0 cp {| se_primary := ld_init (Fin u1) (Fin u2); se_secondary := ld_init (Fin v1) (Fin v2); se_ratio := s |} ss N (Some t) None os' order None true X1 X2 _ _ o2 Hs Hs0 Hf E1 T1' E2 T2) as (X & EX & SX & TX).
  exists X, os2. split; [exact EX|]. split; [exact Fj|]. split; [exact SX|]. intros m j Hm Hj. rewrite (TX m j Hm Hj). cbv beta. destruct (F2 j Hj) as (G1 & _). rewrite G1. reflexivity.
Qed.
Lemma delay_second_exposed_S u1 u2 v1 v2 cp s ss N t ts e es os' order nodes weights :
  disk_flux u1 u2 <> 0 -> disk_flux v1 v2 <> 0 -> one_each n r -> one_each n (o_r_star o) ->
  planet_values n s ss -> (forall j, (j < n)%nat -> 0 <= ss j) ->
  is_vector N t -> (forall m, (m < N)%nat -> aget t (at_time m) = Fin (ts m)) -> exposures N e es -> stencil os' order = Ok (nodes, weights) ->
  exists X os2, secondary_light_curve k cp {| se_primary := ld_init (Fin u1) (Fin u2); se_secondary := ld_init (Fin v1) (Fin v2); se_ratio := s |}
      o r (Some t) (Some e) os' order None true = Ok X /\
    (forall j, (j < n)%nat -> flip k (os j) (rs j) = Ok (os2 j)) /\
    light_table n N X (fun m j =>
      mixture (flux_ratio (ss j) (rs j) (o_r_star (os j)))
        (node_mean nodes weights (fun u => flux_at u1 u2 (pos k (os j) Relative u None true) (rs j) (o_r_star (os j))) (ts m) (es m))
        (node_mean nodes weights (fun u => flux_at v1 v2 (pos k (os2 j) Relative u None true) (o_r_star (os j)) (rs j)) (ts m) (es m))).
Proof.
  intros D1 D2 O1 O2 Hs Hs0 Ht Hts He St. destruct (flip_system k n x xs os o kok sys Ho r rs Hr Hr0) as (o2 & os2 & Hf & sys2 & F2).
  assert (Fj := flip_each o2 os2 sys2 Hf).
  assert (Sl2 : forall j, (j < n)%nat -> slow k (os2 j)).
  { intros j Hj. apply (flip_slow k (xs j) (os j) (rs j)); auto; [apply (sy_init _ _ _ _ _ sys)|apply (sy_phys _ _ _ _ _ sys)]; exact Hj. }
  destruct (delay_exposed_S k n x xs os o kok sys Ho Sl u1 u2 cp r rs N t ts e es os' order nodes weights D1 (one_each_elements n r rs O1 Hr) Ht Hts He St) as (X1 & E1 & T1').
  destruct (delay_exposed_S k n _ _ os2 o2 kok sys2 Hf Sl2 v1 v2 cp (o_r_star o) _ N t ts e es os' order nodes weights D2 (one_each_elements n _ _ O2 (rstar_numbers k n x xs os o kok sys Ho)) Ht Hts He St) as (X2 & E2 & T2).
  destruct (mixed k n x xs os o kok sys Ho r rs Hr Hr0 cp {| se_primary := ld_init (Fin u1) (Fin u2); se_secondary := ld_init (Fin v1) (Fin v2); se_ratio := s |} ss N (Some t) (Some e) os' order None true X1 X2 _ _ o2 Hs Hs0 Hf E1 T1' E2 T2) as (X & EX & SX & TX).
  exists X, os2. split; [exact EX|]. split; [exact Fj|]. split; [exact SX|]. intros m j Hm Hj. rewrite (TX m j Hm Hj). cbv beta. destruct (F2 j Hj) as (G1 & _). rewrite G1. reflexivity.
Qed.
End C.

Lemma delay_light : forall k n (x : kargs tens) xs os o, consts_ok k -> system k n x xs os -> kep_init k x = Ok o -> (forall j, (j < n)%nat -> slow k (os j)) ->
  forall u1 u2 cp r rs N t ts os' order, disk_flux u1 u2 <> 0 -> elements n r rs ->
  is_vector N t -> (forall m, (m < N)%nat -> aget t (at_time m) = Fin (ts m)) ->
  exists X, get_light_curve (ld_init (Fin u1) (Fin u2)) (Some (kep_api k cp o)) (Some r) (Some t) None os' order None true = Ok X /\
    light_table n N X (fun m j => flux_at u1 u2 (pos k (os j) Relative (ts m) None true) (rs j) (o_r_star (os j))).
Proof. intros k n x xs os o kok sys Ho Sl. apply (delay_light_S k n x xs os o kok sys Ho Sl). Qed.
Lemma delay_exposed : forall k n (x : kargs tens) xs os o, consts_ok k -> system k n x xs os -> kep_init k x = Ok o -> (forall j, (j < n)%nat -> slow k (os j)) ->
  forall u1 u2 cp r rs N t ts e es os' order nodes weights, disk_flux u1 u2 <> 0 -> elements n r rs ->
  is_vector N t -> (forall m, (m < N)%nat -> aget t (at_time m) = Fin (ts m)) -> exposures N e es -> stencil os' order = Ok (nodes, weights) ->
  exists X, get_light_curve (ld_init (Fin u1) (Fin u2)) (Some (kep_api k cp o)) (Some r) (Some t) (Some e) os' order None true = Ok X /\
    light_table n N X (fun m j => node_mean nodes weights (fun u => flux_at u1 u2 (pos k (os j) Relative u None true) (rs j) (o_r_star (os j))) (ts m) (es m)).
Proof. intros k n x xs os o kok sys Ho Sl. apply (delay_exposed_S k n x xs os o kok sys Ho Sl). Qed.
(** every entry is the flux of the undelayed orbit at another time *)
Lemma delay_shifted : forall k n (x : kargs tens) xs os o, consts_ok k -> system k n x xs os -> kep_init k x = Ok o -> (forall j, (j < n)%nat -> slow k (os j)) ->
  forall u1 u2 cp r rs N t ts os' order, disk_flux u1 u2 <> 0 -> elements n r rs ->
  is_vector N t -> (forall m, (m < N)%nat -> aget t (at_time m) = Fin (ts m)) ->
  exists X, get_light_curve (ld_init (Fin u1) (Fin u2)) (Some (kep_api k cp o)) (Some r) (Some t) None os' order None true = Ok X /\ ash X = Ok [n; N] /\
    forall m j, (m < N)%nat -> (j < n)%nat -> let z u := vz (pos k (os j) Relative u None false) in
    exists d g, aget X (at_tp m j) = Fin (flux_at u1 u2 (pos k (os j) Relative (ts m - d) None false) (rs j) (o_r_star (os j))) /\
      5 / 7 <= g <= 10 / 3 /\ c_light k * d = - g * z (ts m) /\ 4 * Rabs d < o_period (os j).
Proof.
  intros k n x xs os o kok sys Ho Sl u1 u2 cp r rs N t ts os' order D Hr Ht Hts.
  destruct (delay_light k n x xs os o kok sys Ho Sl u1 u2 cp r rs N t ts os' order D Hr Ht Hts) as (X & E & SX & TX).
  exists X. split; [exact E|]. split; [exact SX|]. intros m j Hm Hj z.
  destruct (delay_law k (xs j) (os j) Relative (ts m) None kok (sy_init _ _ _ _ _ sys j Hj) (sy_phys _ _ _ _ _ sys j Hj) (Sl j Hj) I) as (d & g & P & G1 & G2 & G3 & _).
  exists d, g. rewrite (TX m j Hm Hj), P. split; [reflexivity|]. split; [exact G1|]. split; [exact G2|exact G3].
Qed.
Lemma delay_second : forall k n (x : kargs tens) xs os o, consts_ok k -> system k n x xs os -> kep_init k x = Ok o -> (forall j, (j < n)%nat -> slow k (os j)) ->
  forall r rs, planet_values n r rs -> (forall j, (j < n)%nat -> 0 < rs j) ->
  forall u1 u2 v1 v2 cp s ss N t ts os' order,
  disk_flux u1 u2 <> 0 -> disk_flux v1 v2 <> 0 -> one_each n r -> one_each n (o_r_star o) ->
  planet_values n s ss -> (forall j, (j < n)%nat -> 0 <= ss j) ->
  is_vector N t -> (forall m, (m < N)%nat -> aget t (at_time m) = Fin (ts m)) ->
  exists X os2, secondary_light_curve k cp {| se_primary := ld_init (Fin u1) (Fin u2); se_secondary := ld_init (Fin v1) (Fin v2); se_ratio := s |}
      o r (Some t) None os' order None true = Ok X /\
    (forall j, (j < n)%nat -> flip k (os j) (rs j) = Ok (os2 j)) /\
    light_table n N X (fun m j =>
      mixture (flux_ratio (ss j) (rs j) (o_r_star (os j))) (flux_at u1 u2 (pos k (os j) Relative (ts m) None true) (rs j) (o_r_star (os j)))
        (flux_at v1 v2 (pos k (os2 j) Relative (ts m) None true) (o_r_star (os j)) (rs j))).
Proof. intros k n x xs os o kok sys Ho Sl r rs Hr Hr0. apply (delay_second_S k n x xs os o kok sys Ho Sl r rs Hr Hr0). Qed.
Lemma delay_second_exposed : forall k n (x : kargs tens) xs os o, consts_ok k -> system k n x xs os -> kep_init k x = Ok o -> (forall j, (j < n)%nat -> slow k (os j)) ->
  forall r rs, planet_values n r rs -> (forall j, (j < n)%nat -> 0 < rs j) ->
  forall u1 u2 v1 v2 cp s ss N t ts e es os' order nodes weights,
  disk_flux u1 u2 <> 0 -> disk_flux v1 v2 <> 0 -> one_each n r -> one_each n (o_r_star o) ->
  planet_values n s ss -> (forall j, (j < n)%nat -> 0 <= ss j) ->
  is_vector N t -> (forall m, (m < N)%nat -> aget t (at_time m) = Fin (ts m)) -> exposures N e es -> stencil os' order = Ok (nodes, weights) ->
  exists X os2, secondary_light_curve k cp {| se_primary := ld_init (Fin u1) (Fin u2); se_secondary := ld_init (Fin v1) (Fin v2); se_ratio := s |}
      o r (Some t) (Some e) os' order None true = Ok X /\
    (forall j, (j < n)%nat -> flip k (os j) (rs j) = Ok (os2 j)) /\
    light_table n N X (fun m j =>
      mixture (flux_ratio (ss j) (rs j) (o_r_star (os j)))
        (node_mean nodes weights (fun u => flux_at u1 u2 (pos k (os j) Relative u None true) (rs j) (o_r_star (os j))) (ts m) (es m))
        (node_mean nodes weights (fun u => flux_at v1 v2 (pos k (os2 j) Relative u None true) (o_r_star (os j)) (rs j)) (ts m) (es m))).
Proof. intros k n x xs os o kok sys Ho Sl r rs Hr Hr0. apply (delay_second_exposed_S k n x xs os o kok sys Ho Sl r rs Hr Hr0). Qed.
Lemma delay_mask : forall k cp se o r t texp os order,
  secondary_light_curve k cp se o r t texp os order None true = secondary_light_curve k cp se o r t texp os order (Some false) true.
Proof. reflexivity. Qed.
