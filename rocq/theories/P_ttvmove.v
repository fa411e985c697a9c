(** * How a TTVOrbit moves between transits: property C111 *)
From Coq Require Import Reals List Bool Arith ZArith.
From Verif Require Import Num CoreOps Inst CoreFlux M_units M_kepler M_fin M_tensor M_ttv M_limbdark Spec_orbit Spec_params Spec_array Spec_light Spec_depth Spec_delay Spec_lip Spec_ttv Spec_cont Spec_ttvmove
  Ex_orbit L_ttv6 L_ttvmove3 Ex_ttvmove.
Import ListNotations.
Open Scope R_scope.

(** where a planet is and how it moves at a time does not depend on the other times asked for *)
Theorem C111_motion : forall k n o os tts, consts_ok k -> ttv_system k n o os tts -> exists X V, ttv_motion k n o X V.
Proof. exact move_known. Qed.
Print Assumptions C111_motion.

(** near each transit the planet moves as on the underlying orbit, shifted in time so that the transit is on time *)
Theorem C111_rigid : forall k n o os tts X V b j t c, consts_ok k -> ttv_system k n o os tts -> ttv_motion k n o X V -> (j < n)%nat -> nearest (tts j) t c ->
  X b j t = pos k (os j) b (o_t0 (os j) + (t - c)) None false /\ V b j t = vel (os j) b (o_t0 (os j) + (t - c)).
Proof. exact move_rigid. Qed.
Print Assumptions C111_rigid.

(** velocities are the derivatives of positions, except half way between two transits that are not whole periods apart *)
Theorem C111_velocity : forall k n o os tts X V b j t, consts_ok k -> ttv_system k n o os tts -> ttv_motion k n o X V -> (j < n)%nat ->
  (forall u v, consecutive (tts j) u v -> t = (u + v) / 2 -> whole (v - u) (o_period (os j))) -> vderive (X b j) t (V b j t).
Proof. exact move_velocity. Qed.
Print Assumptions C111_velocity.

(** half way between two transits the motion jumps back by the time between them *)
Theorem C111_jump : forall k n o os tts X V b j u v, consts_ok k -> ttv_system k n o os tts -> ttv_motion k n o X V -> (j < n)%nat -> consecutive (tts j) u v ->
  let m := (u + v) / 2 in
  X b j m = pos k (os j) b (o_t0 (os j) + (v - u) / 2) None false /\ V b j m = vel (os j) b (o_t0 (os j) + (v - u) / 2) /\
  (forall ts, Un_cv ts m -> (forall q, ts q <= m) -> vec_tends (fun q => X b j (ts q)) (X b j m)) /\
  (forall ts, Un_cv ts m -> (forall q, m < ts q) -> vec_tends (fun q => X b j (ts q)) (pos k (os j) b (o_t0 (os j) - (v - u) / 2) None false)).
Proof. exact move_jump. Qed.
Print Assumptions C111_jump.

(** so it is continuous there only if the transits are whole periods apart *)
Theorem C111_continuous : forall k n o os tts X V j u v, consts_ok k -> ttv_system k n o os tts -> ttv_motion k n o X V -> (j < n)%nat -> consecutive (tts j) u v ->
  (continuous_at (X Relative j) ((u + v) / 2) <-> whole (v - u) (o_period (os j))).
Proof. exact move_continuous. Qed.
Print Assumptions C111_continuous.

(** before the first transit and after the last the motion repeats after each period *)
Theorem C111_ends : forall k n o os tts X V b j t (q : nat), consts_ok k -> ttv_system k n o os tts -> ttv_motion k n o X V -> (j < n)%nat ->
  ((forall v, In v (tts j) -> t <= v) -> X b j (t - INR q * o_period (os j)) = X b j t /\ V b j (t - INR q * o_period (os j)) = V b j t) /\
  ((forall v, In v (tts j) -> v <= t) -> X b j (t + INR q * o_period (os j)) = X b j t /\ V b j (t + INR q * o_period (os j)) = V b j t).
Proof. exact move_ends. Qed.
Print Assumptions C111_ends.

(** light curves are as steady as those of a KeplerianOrbit (C90) if the flux on both sides of each half way point is the same ... *)
Theorem C111_light : forall u1 u2 k n o os tts cp r rs N t ts t' ts' texp es osam order,
  disk_flux u1 u2 <> 0 -> consts_ok k -> ttv_system k n o os tts ->
  elements n r rs -> (forall j, (j < n)%nat -> 0 <= rs j /\ o_r_star (os j) + rs j <= o_a (os j) * (1 - ecc_of (os j))) ->
  (forall j u v, (j < n)%nat -> consecutive (tts j) u v -> meets u1 u2 k (os j) (rs j) (v - u)) ->
  is_vector N t -> (forall m, (m < N)%nat -> aget t (at_time m) = Fin (ts m)) ->
  is_vector N t' -> (forall m, (m < N)%nat -> aget t' (at_time m) = Fin (ts' m)) ->
  opt_exposures N texp es -> (texp <> None -> exists nodes weights, stencil osam order = Ok (nodes, weights)) ->
  close_tables n N (get_light_curve (ld_init (Fin u1) (Fin u2)) (Some (ttv_api k cp o)) (Some r) (Some t) texp osam order (Some false) false)
    (get_light_curve (ld_init (Fin u1) (Fin u2)) (Some (ttv_api k cp o)) (Some r) (Some t') texp osam order (Some false) false)
    (fun m j => weight u1 u2 * (4 * (rs j / o_r_star (os j)) * (peak_speed (os j) / o_r_star (os j))) * Rabs (ts m - ts' m)).
Proof. exact ttv_light_steady. Qed.
Print Assumptions C111_light.

(** ... and not even continuous otherwise *)
Theorem C111_light_only : forall u1 u2 k n o os tts cp r rs osam order j u v,
  disk_flux u1 u2 <> 0 -> consts_ok k -> ttv_system k n o os tts ->
  elements n r rs -> (j < n)%nat -> 0 <= rs j /\ o_r_star (os j) + rs j <= o_a (os j) * (1 - ecc_of (os j)) -> consecutive (tts j) u v ->
  (forall ts, Un_cv ts ((u + v) / 2) ->
     tables_tend n 1 (fun q => get_light_curve (ld_init (Fin u1) (Fin u2)) (Some (ttv_api k cp o)) (Some r) (Some (vector 1 (fun _ => ts q))) None osam order (Some false) false)
       (get_light_curve (ld_init (Fin u1) (Fin u2)) (Some (ttv_api k cp o)) (Some r) (Some (vector 1 (fun _ => (u + v) / 2))) None osam order (Some false) false)) ->
  meets u1 u2 k (os j) (rs j) (v - u).
Proof. exact ttv_light_only. Qed.
Print Assumptions C111_light_only.

(** the flux is the same for circular orbits, for transits whole periods apart and if the planet is not in transit half way *)
Theorem C111_meets : forall k n o os tts u1 u2 j r d, consts_ok k -> ttv_system k n o os tts -> disk_flux u1 u2 <> 0 -> (j < n)%nat -> 0 <= r ->
  o_ecc (os j) = None \/ whole d (o_period (os j)) \/ (~ transits k (os j) r (o_t0 (os j) + d / 2) /\ ~ transits k (os j) r (o_t0 (os j) - d / 2)) ->
  meets u1 u2 k (os j) r d.
Proof. exact meets_when. Qed.
Print Assumptions C111_meets.

(** positions are not continuous in general *)
Theorem C111_continuous_refuted : ~ (forall k n o os tts X V j t, consts_ok k -> ttv_system k n o os tts -> ttv_motion k n o X V -> (j < n)%nat -> continuous_at (X Relative j) t).
Proof. exact move_not_continuous. Qed.
Print Assumptions C111_continuous_refuted.

(** the first two transits of the first planet are 10.5 days apart and the last two 10 days, the period *)
Example C111_example : exists o os X V, consts_ok ek /\ ttv_init ek ex_x = Ok o /\ ttv_system ek 2 o os ex_tts /\ ttv_motion ek 2 o X V /\
  nearest (ex_tts 0) 1 2 /\ (forall v, In v (ex_tts 0) -> 1 <= v) /\
  consecutive (ex_tts 0) 2 (25 / 2) /\ ~ whole (25 / 2 - 2) (o_period (os 0%nat)) /\ ~ continuous_at (X Relative 0%nat) (29 / 4) /\
  consecutive (ex_tts 0) 22 32 /\ whole (32 - 22) (o_period (os 0%nat)) /\
  disk_flux (3 / 10) (2 / 10) <> 0 /\ elements 2 (vector 2 (fun _ => 1 / 10)) (fun _ => 1 / 10) /\
  (forall j, (j < 2)%nat -> 0 <= 1 / 10 /\ o_r_star (os j) + 1 / 10 <= o_a (os j) * (1 - ecc_of (os j))) /\
  (forall j u v, (j < 2)%nat -> consecutive (ex_tts j) u v -> meets (3 / 10) (2 / 10) ek (os j) (1 / 10) (v - u)).
Proof. exact move_example. Qed.
