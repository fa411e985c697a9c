(** * Glue for P_transit *)
From Coq Require Import Reals List Bool Arith ZArith Lra Lia Psatz Sorted.
From Verif Require Import Num CoreOps Inst M_units M_kepler M_fin M_tensor Spec_orbit Spec_params Spec_array
  L_real L_orbit L_kwargs L_params3 L_params4 L_fl L_fl2 L_fl3 L_fl4 L_tens L_shape L_transit L_transit2 L_transit3 L_transit4 L_transit5 L_transit6 L_array
  Ex_orbit Ex_system L_pmotion5.
Import ListNotations.
Open Scope R_scope.

Lemma never_transits : forall k (x : kargs R) o r t,
  consts_ok k -> kep_init k x = Ok o -> physical o -> o_ecc o = None -> 0 <= r ->
  1 + r / o_r_star o < Rabs (o_b o) -> ~ transits k o r t.
Proof. intros k x o r t kok H ph circ Hr. apply (no_transit k kok x o H ph circ r Hr). Qed.

Lemma texp_paired : forall k n (x : kargs tens) xs os r rs es t ts cp,
  consts_ok k -> system k n x xs os -> planet_values n r rs ->
  (forall j, (j < n)%nat -> 0 <= es j) -> is_vector n t ->
  (forall m, (m < n)%nat -> aget t (at_time m) = Fin (ts m)) ->
  (forall j, (j < n)%nat -> ka_ecc (xs j) = None /\ 0 <= rs j /\ o_r_star (os j) + rs j < o_a (os j) /\ 0 <= o_sin_incl (os j)) ->
  exists o l, kep_init k x = Ok o /\
    kep_in_transit o (kep_warp o) (lift_cp cp) t r (Some (vector n es)) false = Ok l /\ StronglySorted lt l /\
    forall m, In m l <-> (m < n)%nat /\ exists j s, (j < n)%nat /\ Rabs (s - ts m) <= es j / 2 /\ transits k (os j) (rs j) s.
Proof.
  intros k n x xs os r rs es t ts cp kok sys Hr He Ht Hts G.
  exact (in_transit_circ k n n x xs os r rs (Some (vector n es)) es t ts cp kok sys Hr (vector_values n es) He Ht Hts G).
Qed.

Lemma planets_tables : forall k n N (x : kargs tens) o (t : tens) (fo : nat -> orbit fl) par ld b,
  planet_args n x -> kep_init k x = Ok o -> is_vector N t -> opt_per_planet n par ->
  (forall j, (j < n)%nat -> kep_init k (args_at (at_planet j) x) = Ok (fo j)) ->
  is_table3 n N (pos k o b t par ld) (fun m j => pos k (fo j) b (aget t (at_time m)) (opt_at_planet j par) ld) /\
  is_table3 n N (vel o b t) (fun m j => vel (fo j) b (aget t (at_time m))) /\
  is_table3 n N (acc o b t) (fun m j => acc (fo j) b (aget t (at_time m))) /\
  (let '(rho, th) := get_relative_angles k o (kep_warp o) t par ld in
   is_table n N rho (fun m j => fst (get_relative_angles k (fo j) (kep_warp (fo j)) (aget t (at_time m)) (opt_at_planet j par) ld)) /\
   is_table n N th (fun m j => snd (get_relative_angles k (fo j) (kep_warp (fo j)) (aget t (at_time m)) (opt_at_planet j par) ld))) /\
  (forall K u X, opt_per_planet n K -> get_radial_velocity k o (kep_warp o) t K u = Ok X ->
   exists f, is_table n N X f /\ forall m j, (m < N)%nat -> (j < n)%nat ->
     get_radial_velocity k (fo j) (kep_warp (fo j)) (aget t (at_time m)) (opt_at_planet j K) u = Ok (f m j)).
Proof.
  intros k n N x o t fo par ld b P H Ht Hp Hf.
  split; [eapply pos_table; eassumption|]. split; [eapply vel_table; eassumption|]. split; [eapply acc_table; eassumption|].
  split; [eapply angles_table; eassumption|]. intros K u X HK HX. eapply rv_table; eassumption.
Qed.

Lemma table3_ext n N V f g : (forall m j, (m < N)%nat -> (j < n)%nat -> f m j = g m j) -> is_table3 n N V f -> is_table3 n N V g.
Proof.
  intros E ((A & A') & (B & B') & (C & C')). split; [|split]; (split; [assumption|]); intros m j Hm Hj; rewrite <- (E m j Hm Hj); auto.
Qed.

Lemma system_tables : forall k n N (x : kargs tens) xs os (t : tens) ts,
  consts_ok k -> system k n x xs os -> is_vector N t ->
  (forall m, (m < N)%nat -> aget t (at_time m) = Fin (ts m)) ->
  exists o, kep_init k x = Ok o /\ forall b,
  is_table3 n N (pos k o b t None false) (fun m j => fin3 (pos k (os j) b (ts m) None false)) /\
  is_table3 n N (vel o b t) (fun m j => fin3 (vel (os j) b (ts m))) /\
  ((forall j, (j < n)%nat -> moving (os j) b) ->
   is_table3 n N (acc o b t) (fun m j => fin3 (acc (os j) b (ts m)))).
Proof.
  intros k n N x xs os t ts kok sys Ht Hts. destruct (system_orbit k n x xs os kok sys) as (o & Ho & _). exists o. split; [exact Ho|].
  assert (Hf : forall j, (j < n)%nat -> kep_init k (args_at (at_planet j) x) = Ok (fin_orbit (os j))).
  { intros j Hj. rewrite (sy_at _ _ _ _ _ sys j Hj). apply kep_init_fin; [assumption|apply (sy_init _ _ _ _ _ sys j Hj)|apply (sy_phys _ _ _ _ _ sys j Hj)|apply (sy_dur _ _ _ _ _ sys j Hj)]. }
  assert (MM : forall j, (j < n)%nat -> forall t, 
     (forall b par, pos k (fin_orbit (os j)) b (Fin t) (option_map Fin par) false = fin3 (pos k (os j) b t par false)) /\
     (forall b, vel (fin_orbit (os j)) b (Fin t) = fin3 (vel (os j) b t)) /\
     (forall b, moving (os j) b -> acc (fin_orbit (os j)) b (Fin t) = fin3 (acc (os j) b t))).
  { intros j Hj. destruct (machine_motion k (xs j) (os j) kok (sy_init _ _ _ _ _ sys j Hj) (sy_phys _ _ _ _ _ sys j Hj) (sy_dur _ _ _ _ _ sys j Hj)) as (fo & F1 & F2).
    assert (E : fo = fin_orbit (os j)). { rewrite <- (sy_at _ _ _ _ _ sys j Hj), (Hf j Hj) in F1. apply Ok_inj in F1. symmetry. exact F1. }
    rewrite <- E. exact F2. }
  intro b. destruct (planets_tables k n N x o t (fun j => fin_orbit (os j)) None false b (sy_args _ _ _ _ _ sys) Ho Ht I Hf) as (T1 & T2 & T3 & _).
  split; [|split].
  - refine (table3_ext _ _ _ _ _ _ T1). intros m j Hm Hj. cbv beta. rewrite (Hts m Hm). apply (proj1 (MM j Hj (ts m)) b None).
  - refine (table3_ext _ _ _ _ _ _ T2). intros m j Hm Hj. cbv beta. rewrite (Hts m Hm). apply (proj1 (proj2 (MM j Hj (ts m))) b).
  - intro Mv. refine (table3_ext _ _ _ _ _ _ T3). intros m j Hm Hj. cbv beta. rewrite (Hts m Hm). apply (proj2 (proj2 (MM j Hj (ts m))) b (Mv j Hj)).
Qed.

Lemma planets_example : exists os o,
  system ek 2 (ex_sys_args 2 ex_bs) (fun j => ex_b_args (ex_bs j)) os /\
  planet_args 2 (ex_sys_args 2 ex_bs) /\ kep_init ek (ex_sys_args 2 ex_bs) = Ok o /\ is_vector 3 (vector 3 INR) /\
  (forall j, (j < 2)%nat -> kep_init ek (args_at (at_planet j) (ex_sys_args 2 ex_bs)) = Ok (fin_orbit (os j))).
Proof.
  destruct ex_system as (os & S & _). destruct (system_orbit ek 2 _ _ os ek_ok S) as (o & Ho & _). exists os, o.
  split; [exact S|]. split; [apply ex_sys_planet|]. split; [exact Ho|]. split; [apply vector_is|].
  intros j Hj. rewrite (sy_at _ _ _ _ _ S j Hj). apply kep_init_fin; [exact ek_ok|apply (sy_init _ _ _ _ _ S j Hj)|apply (sy_phys _ _ _ _ _ S j Hj)|apply (sy_dur _ _ _ _ _ S j Hj)].
Qed.

Lemma massless_example : exists o, kep_init ek ex_dur_args = Ok o /\ physical o /\ no_ecc_duration ex_dur_args /\ o_m_planet o = 0.
Proof.
  destruct ex_dur as (o & H & P). exists o. split; [exact H|]. split; [exact P|]. split; [left; reflexivity|].
  apply (f_equal (fun r => match r with Ok o => o_m_planet o | Err _ => 0 end)) in H. cbn in H. symmetry. exact H.
Qed.

Lemma blind_example : exists os,
  system ek 1 (ex_incl_sys_args (- (PI / 2))) (fun _ => ex_incl_args (- (PI / 2))) os /\
  ka_ecc (ex_incl_args (- (PI / 2))) = None /\ 0 <= 1 / 10 /\ Rabs (o_b (os 0%nat)) < 1 + 1 / 10 / o_r_star (os 0%nat) /\
  o_sin_incl (os 0%nat) < 0.
Proof.
  assert (A := ex_a_big). assert (Hc : cos (- (PI / 2)) = 0) by (rewrite cos_neg; apply cos_PI2).
  assert (Hs : sin (- (PI / 2)) = -1) by (rewrite sin_neg, sin_PI2; reflexivity).
  assert (E : exists o, kep_init ek (ex_incl_args (- (PI / 2))) = Ok o /\ physical o /\ o_b o = 0 /\ o_r_star o = 1 /\ o_sin_incl o = -1).
  { eexists. split; [reflexivity|]. set (A0 := Rpowr _ _) in *. split; [|cbn; fold A0; repeat split; simR; try lra; try exact Hs; rewrite ?Hc; field; lra].
    constructor; cbn; fold A0; simR; rewrite ?Hc; try lra; try discriminate. }
  destruct E as (o & E1 & E2 & E3 & E4 & E5). exists (fun _ => o). split; [|rewrite E3, E4, E5, Rabs_R0; cbn; repeat split; lra].
  constructor.
  - lia.
  - constructor; cbn; try exact I; try reflexivity; first [apply vector_pp|apply scalar_pp|left; reflexivity].
  - intros [|j] Hj; [|lia]; reflexivity.
  - intros; assumption.
  - intros; assumption.
  - intros; left; reflexivity.
Qed.
