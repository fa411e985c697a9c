(** * Continuity: the statements *)
From Coq Require Import Reals Lra Lia List Bool Arith ZArith.
From Verif Require Import Num CoreOps Inst CoreFlux M_units M_kepler M_fin M_tensor M_limbdark M_simple M_ttv Spec_orbit Spec_params Spec_array Spec_light Spec_delay Spec_cont L_cont2 L_cont3 L_cont4.
Open Scope R_scope.

Lemma orbit_continuous : forall k xs x o, consts_ok k -> args_tend xs x -> kep_init k x = Ok o -> physical o -> duration_fits k x o -> (ka_tper x <> None \/ sinw_of o <> -1) ->
  exists os, (forall n, kep_init k (xs n) = Ok (os n)) /\ attributes_tend os o /\ (sinw_of o <> -1 -> Un_cv (fun n => o_t0 (os n)) (o_t0 o)).
Proof.
  intros k xs x o kok AT Ho Hp NE HS. destruct (init_tends k kok xs x AT o Ho Hp NE HS) as (os & A & B & _ & _ & C). exists os. split; [exact A|]. split; [exact B|exact C].
Qed.
Lemma motion_continuous : forall k xs x os o ts t pars par, consts_ok k -> args_tend xs x -> (forall n, kep_init k (xs n) = Ok (os n) /\ physical (os n)) -> kep_init k x = Ok o -> physical o ->
  duration_fits k x o -> (ka_tper x <> None \/ sinw_of o <> -1) -> Un_cv ts t -> given_tends Un_cv pars par -> forall b,
  vec_tends (fun n => pos k (os n) b (ts n) (pars n) false) (pos k o b t par false) /\ vec_tends (fun n => vel (os n) b (ts n)) (vel o b t) /\
  (moving o b -> vec_tends (fun n => acc (os n) b (ts n)) (acc o b t)).
Proof.
  intros k xs x os o ts t pars par kok AT H Ho Hp NE HS Ht Hpar b. assert (Hi := fun n => proj1 (H n)). assert (Hq := fun n => proj2 (H n)).
  split; [eapply pos_tends; eassumption|]. split; [eapply vel_tends; eassumption|eapply acc_tends; eassumption].
Qed.
Lemma rv_continuous : forall k xs x os o ts t Ks K u v, consts_ok k -> args_tend xs x -> (forall n, kep_init k (xs n) = Ok (os n) /\ physical (os n)) -> kep_init k x = Ok o -> physical o ->
  duration_fits k x o -> (ka_tper x <> None \/ sinw_of o <> -1) -> Un_cv ts t -> given_tends Un_cv Ks K -> get_radial_velocity k o (kep_warp o) t K u = Ok v ->
  exists vs, (forall n, get_radial_velocity k (os n) (kep_warp (os n)) (ts n) (Ks n) u = Ok (vs n)) /\ Un_cv vs v.
Proof.
  intros k xs x os o ts t Ks K u v kok AT H Ho Hp NE HS Ht HK Hv. assert (Hi := fun n => proj1 (H n)). assert (Hq := fun n => proj2 (H n)).
  eapply rv_tends; eassumption.
Qed.
