(** * Transits at different impact parameters and of SimpleTransitOrbit *)
From Coq Require Import Reals Lra Lia Psatz List Bool Arith ZArith.
From Coquelicot Require Import Coquelicot.
From Verif Require Import Num CoreOps Inst CoreFlux M_units M_kepler M_fin M_tensor M_limbdark M_simple Spec_orbit Spec_params Spec_array Spec_simple Spec_light Spec_depth
  L_real L_orbit L_params3 L_params4 L_simple L_transit L_transit4 L_flux L_area L_depth L_light1 L_light3 L_light4 L_light7 L_light8 L_depth2 L_depth3.
Import ListNotations.
Local Notation length := List.length.
Open Scope R_scope.

Lemma impact_init k (x : kargs R) b b' o o' : ka_duration x = None -> ka_b x = Some b -> kep_init k x = Ok o -> kep_init k (set_incl x (Some b') None) = Ok o' ->
  o_a o' = o_a o /\ o_r_star o' = o_r_star o /\ o_period o' = o_period o /\ o_t0 o' = o_t0 o /\ o_ecc o' = o_ecc o /\ o_b o = b /\ o_b o' = b' /\ 0 <= o_sin_incl o /\ 0 <= o_sin_incl o'.
Proof.
  intros Hdur Hb H H'. unfold kep_init in H, H'.
  assert (ED : kep_duration x = Ok (ka_a x, ka_r_star x, None, None)) by (unfold kep_duration; rewrite Hdur; destruct (ka_ecc x); reflexivity).
  assert (ED' : kep_duration (set_incl x (Some b') None) = Ok (ka_a x, ka_r_star x, None, None)) by (unfold kep_duration; cbn [set_incl ka_duration ka_ecc ka_a ka_r_star]; rewrite Hdur; destruct (ka_ecc x); reflexivity).
  rewrite ED in H. rewrite ED' in H'.
  change (kep_units (set_incl x (Some b') None)) with (kep_units x) in H'. change (kep_omega (set_incl x (Some b') None)) with (kep_omega x) in H'. change (ka_period (set_incl x (Some b') None)) with (ka_period x) in H'.
  change (ka_m_star (set_incl x (Some b') None)) with (ka_m_star x) in H'. change (ka_Omega (set_incl x (Some b') None)) with (ka_Omega x) in H'.
  destruct (kep_units x) as [[mp rho]|]; cbn [rbind] in H, H'; [|discriminate H].
  destruct (consistent_inputs k (ka_a x) (ka_period x) rho (ka_r_star x) (ka_m_star x) mp) as [[[[[[a' p] rho'] rs'] ms] mp']|]; cbn [rbind] in H, H'; [|discriminate H].
  destruct (kep_omega x) as [ed|]; cbn [rbind] in H, H'; [|discriminate H].
  unfold kep_incl in H, H'. cbn [set_incl ka_b ka_incl is_none negb orb] in H, H'. rewrite Hb in H. destruct (ka_incl x); cbn [is_none negb orb rbind] in H, H'; [discriminate H|].
  match type of H' with context [kep_times (set_incl x (Some b') None) ?a ?b ?c] => change (kep_times (set_incl x (Some b') None) a b c) with (kep_times x a b c) in H'; destruct (kep_times x a b c) as [[t0 tp]|] end; cbn [rbind] in H, H'; [|discriminate H].
  apply Ok_inj in H. apply Ok_inj in H'. rewrite <- H, <- H'.
  cbn [o_a o_period o_r_star o_ecc o_b o_sin_incl o_t0]. repeat (split; [reflexivity|]). 
  assert (S : forall c, 0 <= sin (acos c)) by (intro c; destruct (acos_bound c); apply sin_ge_0; assumption).
  split; apply S.
Qed.
Lemma near_mid t0 P t : 0 < P -> exists z : Z, Rabs (t - (t0 + IZR z * P)) <= P / 2.
Proof.
  intro HP. destruct (Rmodulo_eq (t - t0 + P / 2) P) as [z E]. exists z. assert (B := Rmodulo_bounds (t - t0 + P / 2) P HP). rewrite E in B. apply Rabs_le. lra.
Qed.
Lemma impact_flux u1 u2 k (x x' : kargs R) b b' o o' t r : bright u1 u2 -> darkening u1 u2 -> disk_flux u1 u2 <> 0 -> consts_ok k ->
  ka_duration x = None -> ka_b x = Some b -> x' = set_incl x (Some b') None -> kep_init k x = Ok o -> physical o -> kep_init k x' = Ok o' -> physical o' -> o_ecc o = None -> Rabs b <= Rabs b' ->
  flux_at u1 u2 (pos k o Relative t None false) r (o_r_star o) <= flux_at u1 u2 (pos k o' Relative t None false) r (o_r_star o').
Proof.
  intros Hbr Hk Hd kok Hdur Hb -> Ho ph Ho' ph' Hc Hle. destruct (impact_init k x b b' o o' Hdur Hb Ho Ho') as (E1 & E2 & E3 & E4 & E5 & E6 & E7 & E8 & E9).
  assert (Eb : o_b o * o_b o <= o_b o' * o_b o') by (rewrite E6, E7; apply Rsqr_le_abs_1; exact Hle). assert (HP := ph_period _ ph). destruct (near_mid (o_t0 o) (o_period o) t HP) as (z & Hz).
  rewrite Hc in E5. destruct (circ_nearer k x _ o o' kok Ho ph Hc Ho' ph' E5 E9 E1 E2 Eb t t z z) as [C1 C2].
  { rewrite E3, E4. split; [apply Rle_refl|]. apply (Rmult_le_reg_r (o_period o)); [exact HP|]. unfold Rdiv at 1. rewrite Rmult_assoc, Rinv_l by lra. lra. }
  rewrite E2. apply flux_nearer; try assumption; [apply (ph_r_star _ ph)|]. intro h. apply C2; [exact h|]. destruct E8 as [E8|E8]; [left; exact E8|right].
  assert (F := kep_init_facts k kok x o Ho ph). assert (F' := kep_init_facts k kok _ o' Ho' ph').
  assert (U := sin2_cos2' (o_incl o)). rewrite <- (of_cosi _ _ _ F), <- (of_sini _ _ _ F), <- E8 in U. assert (U' := sin2_cos2' (o_incl o')). rewrite <- (of_cosi _ _ _ F'), <- (of_sini _ _ _ F') in U'.
  assert (B := acosi_b k kok x o Ho ph Hc). assert (B' := acosi_b k kok _ o' Ho' ph' E5). rewrite E1, E2 in B'. assert (Ha := ph_a _ ph). assert (C := ph_cosi _ ph').
  assert (Q1 : o_a o * o_a o * (o_cos_incl o * o_cos_incl o) = o_r_star o * o_r_star o * (o_b o * o_b o)) by (replace (o_a o * o_a o * (o_cos_incl o * o_cos_incl o)) with ((o_a o * o_cos_incl o) * (o_a o * o_cos_incl o)) by ring; rewrite B; ring).
  assert (Q2 : o_a o * o_a o * (o_cos_incl o' * o_cos_incl o') = o_r_star o * o_r_star o * (o_b o' * o_b o')) by (replace (o_a o * o_a o * (o_cos_incl o' * o_cos_incl o')) with ((o_a o * o_cos_incl o') * (o_a o * o_cos_incl o')) by ring; rewrite B'; ring).
  assert (Q3 : o_r_star o * o_r_star o * (o_b o * o_b o) <= o_r_star o * o_r_star o * (o_b o' * o_b o')) by (apply Rmult_le_compat_l; [apply Rle_0_sqr|exact Eb]).
  assert (Q4 : o_cos_incl o * o_cos_incl o <= o_cos_incl o' * o_cos_incl o') by (apply (Rmult_le_reg_l (o_a o * o_a o)); [apply Rmult_lt_0_compat; exact Ha|lra]). assert (Z : o_sin_incl o' * o_sin_incl o' = 0) by (assert (Q := Rle_0_sqr (o_sin_incl o')); unfold Rsqr in Q; lra).
  apply Rmult_integral in Z. destruct Z; assumption.
Qed.
Lemma impact_deeper : forall u1 u2 k n (x x' : kargs tens) xs os os' o o' bs bs' cp r rs N t ts texp es osam order,
  disk_flux u1 u2 <> 0 -> bright u1 u2 -> darkening u1 u2 -> consts_ok k ->
  (forall j, (j < n)%nat -> ka_ecc (xs j) = None /\ ka_duration (xs j) = None /\ Rabs (bs' j) <= Rabs (bs j)) ->
  system k n x (fun j => set_incl (xs j) (Some (bs j)) None) os -> kep_init k x = Ok o -> system k n x' (fun j => set_incl (xs j) (Some (bs' j)) None) os' -> kep_init k x' = Ok o' ->
  elements n r rs -> is_vector N t -> (forall m, (m < N)%nat -> aget t (at_time m) = Fin (ts m)) -> opt_exposures N texp es -> (texp <> None -> exists nodes weights, stencil osam order = Ok (nodes, weights)) ->
  deeper n N (get_light_curve (ld_init (Fin u1) (Fin u2)) (Some (kep_api k cp o)) (Some r) (Some t) texp osam order (Some false) false)
             (get_light_curve (ld_init (Fin u1) (Fin u2)) (Some (kep_api k cp o')) (Some r) (Some t) texp osam order (Some false) false).
Proof.
  intros u1 u2 k n x x' xs os os' o o' bs bs' cp r rs N t ts texp es osam order Hd Hb Hk kok H sys Ho sys' Ho' Hr Ht Hts He Hst.
  destruct (kepler_answers k n x _ os o cp kok sys Ho) as [HA HR]. destruct (kepler_answers k n x' _ os' o' cp kok sys' Ho') as [HA' HR'].
  assert (Hp : forall j, (j < n)%nat -> 0 < o_r_star (os j)) by (intros j Hj; apply (ph_r_star _ (sy_phys _ _ _ _ _ sys j Hj))).
  assert (Hp' : forall j, (j < n)%nat -> 0 < o_r_star (os' j)) by (intros j Hj; apply (ph_r_star _ (sy_phys _ _ _ _ _ sys' j Hj))).
  destruct (curve_of u1 u2 (kep_api k cp o) false n (fun j s => pos k (os j) Relative s None false) (fun j => o_r_star (os j)) r rs N t ts texp es osam order Hd HA HR Hp Hr Ht Hts He Hst) as (X & f & EX & TX & F).
  destruct (curve_of u1 u2 (kep_api k cp o') false n (fun j s => pos k (os' j) Relative s None false) (fun j => o_r_star (os' j)) r rs N t ts texp es osam order Hd HA' HR' Hp' Hr Ht Hts He Hst) as (X' & f' & EX' & TX' & F').
  exists X, X', f, f'. split; [exact EX|]. split; [exact EX'|]. split; [exact TX|]. split; [exact TX'|]. intros m j Hm Hj.
  assert (J : forall s, flux_at u1 u2 (pos k (os' j) Relative s None false) (rs j) (o_r_star (os' j)) <= flux_at u1 u2 (pos k (os j) Relative s None false) (rs j) (o_r_star (os j))).
  { intro s. destruct (H j Hj) as (H1 & H2 & H3).
    assert (I := sy_init _ _ _ _ _ sys j Hj). assert (I' := sy_init _ _ _ _ _ sys' j Hj). assert (Q := sy_phys _ _ _ _ _ sys j Hj). assert (Q' := sy_phys _ _ _ _ _ sys' j Hj). cbv beta in I, I'.
    assert (Hc : o_ecc (os' j) = None) by (apply (L_transit4.kep_circ k _ _ I'); exact H1).
    exact (impact_flux u1 u2 k (set_incl (xs j) (Some (bs' j)) None) (set_incl (xs j) (Some (bs j)) None) (bs' j) (bs j) (os' j) (os j) s (rs j) Hb Hk Hd kok H2 eq_refl eq_refl I' Q' I Q Hc H3). }
  destruct texp as [e|].
  - destruct F as (nodes & weights & St & F). destruct F' as (nodes' & weights' & St' & F'). rewrite St in St'. injection St' as <- <-. rewrite F, F'.
    apply mean_le; [apply (quadrature _ _ _ _ St)|]. intros; apply J.
  - rewrite F, F'. apply J.
Qed.
(** ** SimpleTransitOrbit *)
Lemma simple_near x t (q : Z) : 0 < sa_period x -> Rabs (t - smid x q) <= sa_period x / 2 -> Rabs (sdt x t) = Rabs (t - smid x q).
Proof.
  intros HP H. apply Rabs_le_between in H. replace t with (smid x q + (t - smid x q)) at 1 by ring. destruct (Rlt_dec (t - smid x q) (sa_period x / 2)) as [h|h]; [rewrite sdt_mid by (try assumption; lra); reflexivity|].
  assert (E : t - smid x q = sa_period x / 2) by lra. rewrite E. replace (smid x q + sa_period x / 2) with (smid x (q + 1) + - (sa_period x / 2)) by (unfold smid; rewrite plus_IZR; field). rewrite sdt_mid by (try assumption; lra). apply Rabs_Ropp.
Qed.
Lemma simple_nearer : forall u1 u2 n x xs r rs N t ts osam order,
  disk_flux u1 u2 <> 0 -> bright u1 u2 -> darkening u1 u2 -> simple_system n x xs -> (forall j, (j < n)%nat -> simple_ok (xs j)) ->
  elements n r rs -> is_vector N t -> (forall m, (m < N)%nat -> aget t (at_time m) = Fin (ts m)) ->
  exists X f, get_light_curve (ld_init (Fin u1) (Fin u2)) (Some (simple_api (simple_init x))) (Some r) (Some t) None osam order (Some false) false = Ok X /\ light_table n N X f /\
  forall m m' j (z z' : Z), (m < N)%nat -> (m' < N)%nat -> (j < n)%nat ->
    Rabs (ts m - smid (xs j) z) <= Rabs (ts m' - smid (xs j) z') <= sa_period (xs j) / 2 -> f m j <= f m' j.
Proof.
  intros u1 u2 n x xs r rs N t ts osam order Hd Hb Hk sys ok Hr Ht Hts. destruct (lc_simple_plain u1 u2 n x xs r rs N t ts osam order Hd sys ok Hr Ht Hts) as (X & EX & TX).
  eexists X, _. split; [exact EX|]. split; [exact TX|]. intros m m' j z z' Hm Hm' Hj H. destruct (ok j Hj) as [HP HD HR HB].
  assert (N1 := simple_near (xs j) (ts m) z HP ltac:(lra)). assert (N2 := simple_near (xs j) (ts m') z' HP ltac:(lra)). rewrite <- N1, <- N2 in H.
  apply flux_nearer; try assumption; rewrite !spos_eq; unfold apart, vz, vx, vy; cbn [fst snd].
  - intros _. left. apply sqrt_le_1_alt. apply Rplus_le_compat_r. apply Rsqr_le_abs_1. rewrite !Rabs_mult. apply Rmult_le_compat_l; [apply Rabs_pos|lra].
  - destruct (Rltb (Rabs (sdt (xs j) (ts m))) (0.5 * sa_duration (xs j))) eqn:E1; [lra|]. destruct (Rltb (Rabs (sdt (xs j) (ts m'))) (0.5 * sa_duration (xs j))) eqn:E2; [|lra].
    apply Rltb_true in E2. apply Rltb_false in E1. lra.
Qed.
(** ** a star brighter at its limb *)
Lemma limb_bright : ~ darkening (-1) 0 /\ bright (-1) 0 /\ 0 < disk_flux (-1) 0 /\ rel_flux (-1) 0 (1 / 2) (1 / 10) 1 < rel_flux (-1) 0 0 (1 / 10) 1.
Proof.
  assert (Hpi := PI_RGT_0). assert (D : 0 < disk_flux (-1) 0) by (rewrite disk_value; apply Rmult_lt_0_compat; lra).
  split; [rewrite darkening_iff; lra|]. split; [intros mu Hm; unfold intensity; lra|]. split; [exact D|].
  assert (I : forall rho, brightness (-1) 0 rho = 2 - sqrt (1 - rho * rho)) by (intro; unfold brightness, intensity; ring).
  assert (S1 : sqrt (1 - 4 / 10 * (4 / 10)) <= 95 / 100). { rewrite <- (sqrt_square (95 / 100)) by lra. apply sqrt_le_1_alt. lra. }
  assert (S2 : 98 / 100 <= sqrt (1 - 1 / 10 * (1 / 10))). { rewrite <- (sqrt_square (98 / 100)) by lra. apply sqrt_le_1_alt. lra. }
  assert (U := rel_flux_upper (-1) 0 0 (1 / 10) 1 (102 / 100) D ltac:(lra) ltac:(lra)). assert (L := rel_flux_lower (-1) 0 (1 / 2) (1 / 10) 1 (105 / 100) D ltac:(lra)).
  rewrite (Rabs_pos_eq (1 / 2)), (Rabs_pos_eq (1 / 10)) in L by lra. rewrite Rabs_R0, (Rabs_pos_eq (1 / 10)) in U by lra.
  assert (U' : - (102 / 100 * (PI * (1 / 10 * (1 / 10))) / disk_flux (-1) 0) <= rel_flux (-1) 0 0 (1 / 10) 1).
  { apply U. intros rho H1 H2. rewrite I. apply Rabs_le_between in H2. assert (sqrt (1 - 1 / 10 * (1 / 10)) <= sqrt (1 - rho * rho)) by (apply sqrt_le_1_alt; nra). lra. }
  assert (L' : rel_flux (-1) 0 (1 / 2) (1 / 10) 1 <= - (105 / 100 * (PI * (1 / 10 * (1 / 10))) / disk_flux (-1) 0)).
  { apply L; [lra|]. intros rho H1 H2. rewrite I. apply Rabs_le_between in H2. assert (sqrt (1 - rho * rho) <= sqrt (1 - 4 / 10 * (4 / 10))) by (apply sqrt_le_1_alt; nra). lra. }
  assert (Q : 102 / 100 * (PI * (1 / 10 * (1 / 10))) / disk_flux (-1) 0 < 105 / 100 * (PI * (1 / 10 * (1 / 10))) / disk_flux (-1) 0) by (apply Rmult_lt_compat_r; [apply Rinv_0_lt_compat; exact D|lra]). lra.
Qed.
Lemma limb_bright_flux : exists b b' r los : tens, exists v v', bright (-1) 0 /\ 0 < disk_flux (-1) 0 /\
  aget b ix0 = Fin 0 /\ aget b' ix0 = Fin (1 / 2) /\ aget r ix0 = Fin (1 / 10) /\ aget los ix0 = Fin 1 /\
  aget (compute_light_curve (ld_init (Fin (-1)) (Fin 0)) b r (Some los)) ix0 = Fin v /\ aget (compute_light_curve (ld_init (Fin (-1)) (Fin 0)) b' r (Some los)) ix0 = Fin v' /\ v' < v.
Proof.
  destruct limb_bright as (_ & B & D & H). exists (scalar 0), (scalar (1 / 2)), (scalar (1 / 10)), (scalar 1). eexists _, _. split; [exact B|]. split; [exact D|]. do 4 (split; [reflexivity|]).
  split; [apply flux_elt; try reflexivity; lra|]. split; [apply flux_elt; try reflexivity; lra|]. exact H.
Qed.
