(** * Small changes of the transit times and parameters of a TTVOrbit have small effects: property C115 *)
From Coq Require Import Reals List ZArith.
From Verif Require Import Num CoreOps Inst CoreFlux M_units M_kepler M_fin M_tensor M_limbdark M_ttv Spec_orbit Spec_params Spec_array Spec_light Spec_ttv Spec_cont Spec_cont2 Spec_ttvmove
  L_array L_light8 L_ttv6 L_cont7 Ex_orbit Ex_system Ex_sym Ex_cont Ex_cont3.
Import ListNotations.
Open Scope R_scope.

(** t0, period and TTVs of an orbit that is given transit times follow the transit times *)
Theorem C115_fit : forall k (xs : nat -> targs) os x o times' times i ys y inds, (forall q, ttv_init k (xs q) = Ok (os q) /\ ta_ttvs (xs q) = None /\ ta_times (xs q) = Some (times' q) /\ nth_error (times' q) i = Some (map Fin (ys q)) /\ given_labels (xs q) i (map Fin (ys q)) = Some inds) ->
  ttv_init k x = Ok o -> ta_ttvs x = None -> ta_times x = Some times -> nth_error times i = Some (map Fin y) -> given_labels x i (map Fin y) = Some inds ->
  lists_tend ys y -> length inds = length y -> (exists p q, In p inds /\ In q inds /\ p <> q) ->
  exists as_ bs rs a b r, (forall q, entry (o_t0 (tt_orbit (os q))) i = Fin (as_ q) /\ entry (tt_period (os q)) i = Fin (bs q) /\ nth_error (tt_ttvs (os q)) i = Some (map Fin (rs q))) /\
    entry (o_t0 (tt_orbit o)) i = Fin a /\ entry (tt_period o) i = Fin b /\ nth_error (tt_ttvs o) i = Some (map Fin r) /\ Un_cv as_ a /\ Un_cv bs b /\ lists_tend rs r.
Proof. exact fit_tends. Qed.
Print Assumptions C115_fit.

(** positions and velocities follow TTVs, parameters and times, except half way between
    two transits that are not a whole number of periods apart *)
Theorem C115_motion : forall k n o os tts X V o' ps tts' X' V' xs x j b ts t, consts_ok k ->
  (forall q, ttv_system k n (o q) (os q) (tts q) /\ ttv_motion k n (o q) (X q) (V q)) -> ttv_system k n o' ps tts' -> ttv_motion k n o' X' V' -> (j < n)%nat ->
  (forall q, kep_init k (xs q) = Ok (os q j)) -> kep_init k x = Ok (ps j) -> args_tend xs x -> duration_fits k x (ps j) -> sinw_of (ps j) <> -1 ->
  lists_tend (fun q => tts q j) (tts' j) -> Un_cv ts t -> (forall u v, consecutive (tts' j) u v -> t = (u + v) / 2 -> whole (v - u) (o_period (ps j))) ->
  vec_tends (fun q => X q b j (ts q)) (X' b j t) /\ vec_tends (fun q => V q b j (ts q)) (V' b j t).
Proof. exact ttv_motion_tends. Qed.
Print Assumptions C115_motion.

(** so do light curves *)
Theorem C115_light : forall u1s u1 u2s u2 k n (o : nat -> ttvorbit) os tts o' ps tts' xs x cp r rs r' rs' N t ts t' ts' texp es texp' es' osam order,
  disk_flux u1 u2 <> 0 -> (forall q, disk_flux (u1s q) (u2s q) <> 0) -> Un_cv u1s u1 -> Un_cv u2s u2 -> consts_ok k ->
  (forall q, ttv_system k n (o q) (os q) (tts q)) -> ttv_system k n o' ps tts' ->
  (forall j, (j < n)%nat -> (forall q, kep_init k (xs q j) = Ok (os q j)) /\ kep_init k (x j) = Ok (ps j) /\ args_tend (fun q => xs q j) (x j) /\ duration_fits k (x j) (ps j) /\ sinw_of (ps j) <> -1 /\
    lists_tend (fun q => tts q j) (tts' j)) ->
  (forall q, elements n (r q) (rs q)) -> elements n r' rs' -> (forall j, (j < n)%nat -> Un_cv (fun q => rs q j) (rs' j) /\ o_r_star (ps j) + Rabs (rs' j) < o_a (ps j) * (1 - ecc_of (ps j))) ->
  (forall j u v, (j < n)%nat -> consecutive (tts' j) u v -> meets u1 u2 k (ps j) (rs' j) (v - u)) ->
  (forall q, is_vector N (t q) /\ forall m, (m < N)%nat -> aget (t q) (at_time m) = Fin (ts q m)) -> is_vector N t' -> (forall m, (m < N)%nat -> aget t' (at_time m) = Fin (ts' m)) ->
  (forall m, (m < N)%nat -> Un_cv (fun q => ts q m) (ts' m)) ->
  (forall q, opt_exposures N (texp q) (es q) /\ is_none (texp q) = is_none texp') -> opt_exposures N texp' es' -> (forall m, (m < N)%nat -> Un_cv (fun q => es q m) (es' m)) ->
  (texp' <> None -> exists nodes weights, stencil osam order = Ok (nodes, weights)) ->
  tables_tend n N (fun q => get_light_curve (ld_init (Fin (u1s q)) (Fin (u2s q))) (Some (ttv_api k cp (o q))) (Some (r q)) (Some (t q)) (texp q) osam order (Some false) false)
    (get_light_curve (ld_init (Fin u1) (Fin u2)) (Some (ttv_api k cp o')) (Some r') (Some t') texp' osam order (Some false) false).
Proof. exact ttv_light_tends. Qed.
Print Assumptions C115_light.

(** half way between other transits the position jumps *)
Theorem C115_half_way_refuted : ~ (forall k n o os tts X V o' ps tts' X' V' xs x j b ts t, consts_ok k ->
  (forall q, ttv_system k n (o q) (os q) (tts q) /\ ttv_motion k n (o q) (X q) (V q)) -> ttv_system k n o' ps tts' -> ttv_motion k n o' X' V' -> (j < n)%nat ->
  (forall q, kep_init k (xs q) = Ok (os q j)) -> kep_init k x = Ok (ps j) -> args_tend xs x -> duration_fits k x (ps j) -> sinw_of (ps j) <> -1 ->
  lists_tend (fun q => tts q j) (tts' j) -> Un_cv ts t -> vec_tends (fun q => X q b j (ts q)) (X' b j t)).
Proof. exact ttv_middle_jump. Qed.
Print Assumptions C115_half_way_refuted.

(** three transits, one of which approaches its limit *)
Example C115_fit_example : exists os o, (forall q, ttv_init ek (ex_nxt (small q)) = Ok (os q) /\ ta_ttvs (ex_nxt (small q)) = None /\ ta_times (ex_nxt (small q)) = Some (ex_ntimes (small q)) /\
    nth_error (ex_ntimes (small q)) 0 = Some (map Fin [2 + small q; 25 / 2; 32]) /\ given_labels (ex_nxt (small q)) 0 (map Fin [2 + small q; 25 / 2; 32]) = Some [0; 1; 3]%Z) /\
  ttv_init ek (ex_nxt 0) = Ok o /\ ta_ttvs (ex_nxt 0) = None /\ ta_times (ex_nxt 0) = Some (ex_ntimes 0) /\ nth_error (ex_ntimes 0) 0 = Some (map Fin [2 + 0; 25 / 2; 32]) /\
  given_labels (ex_nxt 0) 0 (map Fin [2 + 0; 25 / 2; 32]) = Some [0; 1; 3]%Z /\ lists_tend (fun q => [2 + small q; 25 / 2; 32]) [2 + 0; 25 / 2; 32] /\
  (exists p q, In p [0; 1; 3]%Z /\ In q [0; 1; 3]%Z /\ p <> q).
Proof. exact fit_near_example. Qed.

(** two planets whose TTVs, impact parameters and radii approach a limit *)
Example C115_example : exists o os X V o' ps X' V', consts_ok ek /\
  (forall q, ttv_init ek (ex_nx (small q)) = Ok (o q) /\ ttv_system ek 2 (o q) (os q) (ex_ntts (small q)) /\ ttv_motion ek 2 (o q) (X q) (V q)) /\
  ttv_init ek (ex_nx 0) = Ok o' /\ ttv_system ek 2 o' ps (ex_ntts 0) /\ ttv_motion ek 2 o' X' V' /\
  (forall j, (j < 2)%nat -> (forall q, kep_init ek (ex_b_args (tilt (small q) j)) = Ok (os q j)) /\ kep_init ek (ex_b_args (tilt 0 j)) = Ok (ps j) /\ args_tend (fun q => ex_b_args (tilt (small q) j)) (ex_b_args (tilt 0 j)) /\
    duration_fits ek (ex_b_args (tilt 0 j)) (ps j) /\ sinw_of (ps j) <> -1 /\ lists_tend (fun q => ex_ntts (small q) j) (ex_ntts 0 j)) /\
  (* half way between transits that are a whole period apart, and not half way *)
  (forall u v, consecutive (ex_ntts 0 0) u v -> 27 = (u + v) / 2 -> whole (v - u) (o_period (ps 0%nat))) /\ consecutive (ex_ntts 0 0) 22 32 /\
  (forall u v, consecutive (ex_ntts 0 0) u v -> 3 = (u + v) / 2 -> whole (v - u) (o_period (ps 0%nat))) /\
  disk_flux (3 / 10) (2 / 10) <> 0 /\ elements 2 (vector 2 (fun _ => 1 / 10)) (fun _ => 1 / 10) /\
  (forall j, (j < 2)%nat -> Un_cv (fun q => 1 / 10 + small q) (1 / 10) /\ o_r_star (ps j) + Rabs (1 / 10) < o_a (ps j) * (1 - ecc_of (ps j))) /\
  (forall j u v, (j < 2)%nat -> consecutive (ex_ntts 0 j) u v -> meets (3 / 10) (2 / 10) ek (ps j) (1 / 10) (v - u)).
Proof. exact ttv_near_example. Qed.
