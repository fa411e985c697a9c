(** * Motion on machine numbers, assembled *)
From Coq Require Import Reals List Bool Lra Psatz.
From Verif Require Import Num CoreOps Inst M_units M_kepler M_fin Spec_orbit Spec_params L_real L_kepop L_orbit L_motion L_params3 L_pmotion L_fl L_fl2 L_fl3.
Open Scope R_scope.

Lemma machine_motion : forall k (x : kargs R) o,
  consts_ok k -> kep_init k x = Ok o -> physical o -> no_ecc_duration x ->
  exists fo, kep_init k (fin_args x) = Ok fo /\ forall t,
  (forall b par, pos k fo b (Fin t) (option_map Fin par) false = fin3 (pos k o b t par false)) /\
  (forall b, vel fo b (Fin t) = fin3 (vel o b t)) /\
  (forall b, moving o b -> acc fo b (Fin t) = fin3 (acc o b t)).
Proof.
  intros k x o kok H ph Hd. exists (fin_orbit o). split; [apply kep_init_fin; assumption|].
  assert (F := kep_init_facts k kok x o H ph).
  assert (W := kep_warp_fin o).
  assert (A := ph_a _ ph). assert (M := ph_m_total _ ph). assert (EM := of_mtot _ _ _ F).
  intro t. split; [|split].
  - intros [] par; unfold pos, get_planet_position, get_star_position, get_relative_position; rewrite sqz3_fl, sqz3_id;
      unfold get_position; apply (pos_nd_fin k o ph (kep_warp o) _ W).
  - intros []; unfold vel, get_planet_velocity, get_star_velocity, get_relative_velocity; rewrite sqz3_fl, sqz3_id;
      apply (vel_fin o ph (kep_warp o) _ W).
  - intros [] Hm; cbn in Hm; unfold acc, get_planet_acceleration, get_star_acceleration, get_relative_acceleration; rewrite sqz3_fl, sqz3_id;
      apply (acc_fin o ph (kep_warp o) _ W).
    + rewrite (of_a_planet _ _ _ F). assert (0 < o_a o * o_m_star o / o_m_total o) by (apply Rdiv_lt_0_compat; nra).
      unfold Rdiv in *. lra.
    + rewrite (of_a_star _ _ _ F). assert (0 < o_a o * o_m_planet o / o_m_total o) by (apply Rdiv_lt_0_compat; nra).
      lra.
    + cbn; lra.
Qed.

Lemma massless_nan : forall k (x : kargs R) o,
  consts_ok k -> kep_init k x = Ok o -> physical o -> no_ecc_duration x ->
  exists fo, kep_init k (fin_args x) = Ok fo /\ forall t,
  (o_m_planet o = 0 -> acc fo Star (Fin t) = (NaN, NaN, NaN) /\
     forall par, pos k fo Star (Fin t) par true = (NaN, NaN, NaN)) /\
  (o_m_star o = 0 -> acc fo Planet (Fin t) = (NaN, NaN, NaN) /\
     forall par, pos k fo Planet (Fin t) par true = (NaN, NaN, NaN)).
Proof.
  intros k x o kok H ph Hd. exists (fin_orbit o). split; [apply kep_init_fin; assumption|].
  assert (F := kep_init_facts k kok x o H ph).
  assert (W := kep_warp_fin o). assert (Wn := kep_warp_nan o).
  intro t. split; intro Hm.
  - assert (E : o_a_star o = 0) by (rewrite (of_a_star _ _ _ F), Hm; unfold Rdiv; ring).
    split; [|intro par]; unfold pos, acc, get_star_position, get_star_acceleration; rewrite sqz3_fl; cbn [fin_orbit map_orbit o_a_star o_m_planet];
      rewrite E, ?Hm; [apply (acc_nan o ph (kep_warp o) _ W)|apply (delayed_nan k o ph (kep_warp o) _ W Wn)].
  - assert (E : o_a_planet o = 0) by (rewrite (of_a_planet _ _ _ F), Hm; unfold Rdiv; ring).
    split; [|intro par]; unfold pos, acc, get_planet_position, get_planet_acceleration; rewrite sqz3_fl; cbn [fin_orbit map_orbit o_a_planet o_m_star nneg NumF fneg];
      rewrite E, ?Hm, ?Ropp_0; [apply (acc_nan o ph (kep_warp o) _ W)|apply (delayed_nan k o ph (kep_warp o) _ W Wn)].
Qed.
