(** * Small changes of the parameters of a SimpleTransitOrbit have small effects: property C114 *)
From Coq Require Import Reals List ZArith.
From Verif Require Import Num CoreOps Inst CoreFlux M_units M_kepler M_fin M_tensor M_limbdark M_simple M_ttv Spec_orbit Spec_params Spec_array Spec_light Spec_simple Spec_cont Spec_cont2
  L_simple2 L_cont6 Ex_orbit Ex_system Ex_sym Ex_cont Ex_cont2.
Open Scope R_scope.

(** when parameters and times approach a limit, so do the positions: x except half way between transits,
    y and the distance on the sky always, and z is the same from some point on except at the contacts *)
Theorem C114_position : forall xs x ts t, sargs_tend xs x -> (forall n, simple_ok (xs n)) -> simple_ok x -> Un_cv ts t ->
  (~ half_way x t -> Un_cv (fun n => sx (xs n) (ts n)) (sx x t)) /\ Un_cv (fun n => sy (xs n) (ts n)) (sy x t) /\ Un_cv (fun n => sdist (xs n) (ts n)) (sdist x t) /\
  (~ at_contact x t -> exists N, forall n, (N <= n)%nat -> sz (xs n) (ts n) = sz x t).
Proof. exact simple_position_cv. Qed.
Print Assumptions C114_position.

(** light curves, at all times and exposure times, if the planet is not larger than the orbit was told *)
Theorem C114_light : forall u1s u1 u2s u2 n (X : nat -> sargs tens) xs (x : sargs tens) ys r rs r' rs' N t ts t' ts' texp es texp' es' osam order,
  disk_flux u1 u2 <> 0 -> (forall q, disk_flux (u1s q) (u2s q) <> 0) -> Un_cv u1s u1 -> Un_cv u2s u2 ->
  (forall q, simple_system n (X q) (xs q) /\ forall j, (j < n)%nat -> simple_ok (xs q j)) -> simple_system n x ys -> (forall j, (j < n)%nat -> simple_ok (ys j) /\ sargs_tend (fun q => xs q j) (ys j)) ->
  (forall q, elements n (r q) (rs q)) -> elements n r' rs' -> (forall j, (j < n)%nat -> Un_cv (fun q => rs q j) (rs' j) /\ Rabs (rs' j) <= dflt 0 (sa_ror (ys j)) * dflt 1 (sa_r_star (ys j))) ->
  (forall q, is_vector N (t q) /\ forall m, (m < N)%nat -> aget (t q) (at_time m) = Fin (ts q m)) -> is_vector N t' -> (forall m, (m < N)%nat -> aget t' (at_time m) = Fin (ts' m)) ->
  (forall m, (m < N)%nat -> Un_cv (fun q => ts q m) (ts' m)) ->
  (forall q, opt_exposures N (texp q) (es q) /\ is_none (texp q) = is_none texp') -> opt_exposures N texp' es' -> (forall m, (m < N)%nat -> Un_cv (fun q => es q m) (es' m)) ->
  (texp' <> None -> exists nodes weights, stencil osam order = Ok (nodes, weights)) ->
  tables_tend n N (fun q => get_light_curve (ld_init (Fin (u1s q)) (Fin (u2s q))) (Some (simple_api (simple_init (X q)))) (Some (r q)) (Some (t q)) (texp q) osam order (Some false) false)
    (get_light_curve (ld_init (Fin u1) (Fin u2)) (Some (simple_api (simple_init x))) (Some r') (Some t') texp' osam order (Some false) false).
Proof. exact simple_light_tends. Qed.
Print Assumptions C114_light.

(** x jumps half way between transits *)
Theorem C114_half_way_refuted : ~ (forall xs x ts t, sargs_tend xs x -> (forall n, simple_ok (xs n)) -> simple_ok x -> Un_cv ts t -> Un_cv (fun n => sx (xs n) (ts n)) (sx x t)).
Proof. exact halfway_jump. Qed.
Print Assumptions C114_half_way_refuted.

(** z jumps at the contacts *)
Theorem C114_contact_refuted : ~ (forall xs x ts t, sargs_tend xs x -> (forall n, simple_ok (xs n)) -> simple_ok x -> Un_cv ts t -> Un_cv (fun n => sz (xs n) (ts n)) (sz x t)).
Proof. exact contact_flip. Qed.
Print Assumptions C114_contact_refuted.

(** and so does the light curve of a planet that is larger than the orbit was told *)
Theorem C114_larger_refuted : ~ (forall u1 u2 n x xs r rs ts t, disk_flux u1 u2 <> 0 -> simple_system n x xs -> (forall j, (j < n)%nat -> simple_ok (xs j)) ->
  elements n r rs -> (forall j, (j < n)%nat -> 0 <= rs j) -> Un_cv ts t ->
  tables_tend n 1 (fun q => get_light_curve (ld_init (Fin u1) (Fin u2)) (Some (simple_api (simple_init x))) (Some r) (Some (vector 1 (fun _ => ts q))) None 7 0 (Some false) false)
    (get_light_curve (ld_init (Fin u1) (Fin u2)) (Some (simple_api (simple_init x))) (Some r) (Some (vector 1 (fun _ => t))) None 7 0 (Some false) false)).
Proof. exact larger_jump. Qed.
Print Assumptions C114_larger_refuted.

(** two planets; the limits of the times are contacts of the first *)
Example C114_example : disk_flux (3 / 10) (2 / 10) <> 0 /\ (forall q, disk_flux (3 / 10 * (1 - small q)) (2 / 10 + small q) <> 0) /\ Un_cv (fun q => 3 / 10 * (1 - small q)) (3 / 10) /\ Un_cv (fun q => 2 / 10 + small q) (2 / 10) /\
  (forall q, simple_system 2 (ex_nears (small q) (fun j => INR j / 2 + small q)) (fun j => ex_near (small q) (INR j / 2 + small q)) /\ forall j, (j < 2)%nat -> simple_ok (ex_near (small q) (INR j / 2 + small q))) /\
  simple_system 2 (ex_nears 0 (fun j => INR j / 2)) (fun j => ex_near 0 (INR j / 2)) /\
  (forall j, (j < 2)%nat -> simple_ok (ex_near 0 (INR j / 2)) /\ sargs_tend (fun q => ex_near (small q) (INR j / 2 + small q)) (ex_near 0 (INR j / 2))) /\
  (forall q, elements 2 (vector 2 (fun _ => 1 / 10 + 2 * small q)) (fun _ => 1 / 10 + 2 * small q)) /\ elements 2 (vector 2 (fun _ => 1 / 10)) (fun _ => 1 / 10) /\
  (forall j, (j < 2)%nat -> Un_cv (fun q => 1 / 10 + 2 * small q) (1 / 10) /\ Rabs (1 / 10) <= dflt 0 (sa_ror (ex_near 0 (INR j / 2))) * dflt 1 (sa_r_star (ex_near 0 (INR j / 2)))) /\
  (forall q, is_vector 2 (vector 2 (fun m => 3 / 2 + INR m + small q)) /\ forall m, (m < 2)%nat -> aget (vector 2 (fun m => 3 / 2 + INR m + small q)) (at_time m) = Fin (3 / 2 + INR m + small q)) /\
  is_vector 2 (vector 2 (fun m => 3 / 2 + INR m)) /\ (forall m, (m < 2)%nat -> aget (vector 2 (fun m => 3 / 2 + INR m)) (at_time m) = Fin (3 / 2 + INR m)) /\ (forall m, (m < 2)%nat -> Un_cv (fun q => 3 / 2 + INR m + small q) (3 / 2 + INR m)) /\
  (forall m, (m < 2)%nat -> at_contact (ex_near 0 0) (3 / 2 + INR m)) /\ half_way (ex_near 0 0) 7 /\ ~ half_way (ex_near 0 0) 3 /\ ~ at_contact (ex_near 0 0) 3 /\
  (forall q, opt_exposures 2 (one_texp (Some (1 / 4 - small q / 10))) (fun _ => 1 / 4 - small q / 10) /\ is_none (one_texp (Some (1 / 4 - small q / 10))) = is_none (one_texp (Some (1 / 4)))) /\
  opt_exposures 2 (one_texp (Some (1 / 4))) (fun _ => 1 / 4) /\ Un_cv (fun q => 1 / 4 - small q / 10) (1 / 4) /\ exists nodes weights, stencil 7 2 = Ok (nodes, weights).
Proof. exact simple_near_example. Qed.
