(** * Interpolated light curves: property C47 *)
From Coq Require Import Reals List Bool Arith ZArith.
From Verif Require Import Num CoreOps Inst CoreFlux M_units M_kepler M_fin M_tensor M_simple M_ttv M_limbdark M_interpolated
  Spec_orbit Spec_params Spec_array Spec_light Spec_interp Ex_orbit Ex_system L_interp2 L_interp3 L_interp4.
Import ListNotations.
Open Scope R_scope.

(** ** C47 *)
(** every value is that of the cubic polynomial through the light curve at the
    four grid points around the phase of the observation *)
Theorem C47_interpolates : forall n base Q np tv t0 period f T0 P N t ts,
  interpolating n base Q np tv t0 period f T0 P -> observed N t ts ->
  exists Y v, interpolated_light_curve base Q np tv t0 period t = Ok Y /\ light_table n N Y v /\
    forall m j, (m < N)%nat -> (j < n)%nat ->
      exists ph, phase (T0 j) (P j) (ts m) ph /\
        four_point (fun s => f j (T0 j + s)) (P j / IZR (Q + 1)) ph (v m j).
Proof. exact interpolates. Qed.
Print Assumptions C47_interpolates.
Theorem C47_grid : forall n base Q np tv t0 period f T0 P N t ts,
  interpolating n base Q np tv t0 period f T0 P -> observed N t ts ->
  exists Y v, interpolated_light_curve base Q np tv t0 period t = Ok Y /\ light_table n N Y v /\
    forall m j (i : nat) (z : Z), (m < N)%nat -> (j < n)%nat -> (Z.of_nat i <= Q)%Z ->
      ts m = T0 j + IZR z * P j + INR i * (P j / IZR (Q + 1)) -> v m j = f j (T0 j + INR i * (P j / IZR (Q + 1))).
Proof. exact interp_grid. Qed.
Print Assumptions C47_grid.
Theorem C47_periodic : forall n base Q np tv t0 period f T0 P N t ts t' ts',
  interpolating n base Q np tv t0 period f T0 P -> observed N t ts -> observed N t' ts' ->
  exists Y v Y' v', interpolated_light_curve base Q np tv t0 period t = Ok Y /\ light_table n N Y v /\
    interpolated_light_curve base Q np tv t0 period t' = Ok Y' /\ light_table n N Y' v' /\
    forall m j (z : Z), (m < N)%nat -> (j < n)%nat -> ts' m = ts m + IZR z * P j -> v' m j = v m j.
Proof. exact interp_periodic. Qed.
Print Assumptions C47_periodic.
(** a periodic light curve is reproduced exactly where it is a cubic polynomial
    of time, and within 3/4 of a grid step times its steepest slope elsewhere *)
Theorem C47_accuracy : forall n base Q np tv t0 period f T0 P N t ts,
  interpolating n base Q np tv t0 period f T0 P -> observed N t ts ->
  (forall j s (z : Z), (j < n)%nat -> f j (s + IZR z * P j) = f j s) ->
  exists Y v, interpolated_light_curve base Q np tv t0 period t = Ok Y /\ light_table n N Y v /\
    forall m j, (m < N)%nat -> (j < n)%nat ->
      (forall c0 c1 c2 c3, (forall s, Rabs (s - ts m) <= 2 * (P j / IZR (Q + 1)) -> f j s = cubic c0 c1 c2 c3 s) -> v m j = f j (ts m)) /\
      (forall L, 0 <= L -> (forall s, Rabs (s - ts m) <= 2 * (P j / IZR (Q + 1)) -> Rabs (f j s - f j (ts m)) <= L * Rabs (s - ts m)) ->
         Rabs (v m j - f j (ts m)) <= 3 / 4 * L * (P j / IZR (Q + 1))).
Proof. exact interp_accuracy. Qed.
Print Assumptions C47_accuracy.
(** the hypotheses of the theorems above are met by the limb-darkened light
    curves of Keplerian orbits, with and without masking *)
Theorem C47_kepler : forall u1 u2 k n (x : kargs tens) xs os o cp r rs os' order use Q np tv,
  disk_flux u1 u2 <> 0 -> consts_ok k -> system k n x xs os -> kep_init k x = Ok o -> elements n r rs ->
  use = false \/ (forall j, (j < n)%nat -> ka_ecc (xs j) = None /\ 0 <= rs j /\ o_r_star (os j) + rs j < o_a (os j) /\ 0 <= o_sin_incl (os j)) ->
  (0 <= Q)%Z -> counted np tv n ->
  ash (o_t0 o) = Ok (if Nat.leb n 1 then [] else [n]) -> ash (o_period o) = Ok (if Nat.leb n 1 then [] else [n]) ->
  let f j s := flux_at u1 u2 (pos k (os j) Relative s None false) (rs j) (o_r_star (os j)) in
  interpolating n (fun t => get_light_curve (ld_init (Fin u1) (Fin u2)) (Some (kep_api k (lift_cp cp) o)) (Some r) (Some t) None os' order (Some use) false)
    Q np tv (o_t0 o) (o_period o) f (fun j => o_t0 (os j)) (fun j => o_period (os j)) /\
  forall j s (z : Z), (j < n)%nat -> f j (s + IZR z * o_period (os j)) = f j s.
Proof. exact interp_kepler. Qed.
Print Assumptions C47_kepler.
Theorem C47_uncounted : forall base Q t0 period t, interpolated_light_curve base Q None None t0 period t = Err ValueError.
Proof. exact interp_uncounted. Qed.
Print Assumptions C47_uncounted.
(** one planet described by vectors of length one is rejected *)
Theorem C47_one_vector_refuted : forall base Q np tv t0 period N t ts d,
  counted np tv 1 -> observed N t ts -> ash t0 = Ok [d] \/ (ash t0 = Ok [] /\ ash period = Ok [d]) ->
  interpolated_light_curve base Q np tv t0 period t = Err AssertErr.
Proof. exact interp_one_vector. Qed.
Print Assumptions C47_one_vector_refuted.
(** several planets that share one transit time are rejected *)
Theorem C47_shared_refuted : forall n base Q np tv t0 period N t ts,
  counted np tv n -> (2 <= n)%nat -> observed N t ts -> ash t0 = Ok [] ->
  interpolated_light_curve base Q np tv t0 period t = Err IndexErr.
Proof. exact interp_shared. Qed.
Print Assumptions C47_shared_refuted.
(** times of any shape: the entries are those for the list of all times; the
    planets come second if there is one planet and last if there are several *)
Theorem C47_shape : forall n base Q np tv t0 period f T0 P s t ts,
  interpolating n base Q np tv t0 period f T0 P -> recorded s t ts -> (s = [] -> (2 <= n)%nat) ->
  exists Y Z v, interpolated_light_curve base Q np tv t0 period t = Ok Y /\
    interpolated_light_curve base Q np tv t0 period (avec (map ts (seq 0 (prod s)))) = Ok Z /\ light_table n (prod s) Z v /\
    ash Y = Ok (placed n s) /\ forall i j, inside s i -> (j < n)%nat -> aget Y (place n s i j) = Fin (v (lin s i) j).
Proof. exact interp_shape. Qed.
Print Assumptions C47_shape.
(** a single time is rejected if there is one planet, and accepted if there are several *)
Theorem C47_single_time_refuted : forall base Q np tv t0 period f T0 P t ts,
  interpolating 1 base Q np tv t0 period f T0 P -> recorded [] t ts -> interpolated_light_curve base Q np tv t0 period t = Err IndexErr.
Proof. exact interp_single. Qed.
Print Assumptions C47_single_time_refuted.
Example C47_example_shape : forall cp, exists o r, kep_init ek (ex_scalar_args 0) = Ok o /\
  (exists f T0 P, interpolating 1 (fun t => get_light_curve (ld_init (Fin (3 / 10)) (Fin (2 / 10))) (Some (kep_api ek (lift_cp cp) o)) (Some r) (Some t) None 7 0 None false)
    50 None (Some 1%nat) (o_t0 o) (o_period o) f T0 P) /\
  recorded [3; 2]%nat (mkA (Ok [3; 2]%nat) (fun i => Fin (INR (i O) + INR (i 1%nat) / 2))) (fun m => INR (m mod 3) + INR (m / 3) / 2) /\
  recorded [] (scalar 1) (fun _ => 1).
Proof. exact shape_example. Qed.
Example C47_example : exists o, disk_flux (3 / 10) (2 / 10) <> 0 /\ consts_ok ek /\
  system ek 1 (ex_scalar_args 0) (fun _ => ex_b_args 0) (fun _ => o) /\
  elements 1 (scalar (1 / 10)) (fun _ => 1 / 10) /\
  (ka_ecc (ex_b_args 0) = None /\ 0 <= 1 / 10 /\ o_r_star o + 1 / 10 < o_a o /\ 0 <= o_sin_incl o) /\
  counted None (Some 1%nat) 1 /\ counted (Some 1%Z) None 1 /\
  (forall o', kep_init ek (ex_scalar_args 0) = Ok o' -> ash (o_t0 o') = Ok [] /\ ash (o_period o') = Ok []) /\
  observed 3 (vector 3 INR) INR.
Proof. exact interp_example. Qed.
