(** * Rounding errors in the distributions: property C117 *)
From Coq Require Import Reals List Arith ZArith String.
From Verif Require Import Num CoreOps Inst CoreFlux M_units M_kepler M_kwargs M_tensor M_limbdark M_dist Spec_array Spec_light Spec_dist Spec_float Spec_float2 Spec_float3 Spec_float4
  L_float14 Ex_dist Ex_float Ex_float4.
Import ListNotations.
Local Notation length := List.length.
Open Scope R_scope.

(** angle: the direction of the two normal variables with a relative error of u *)
Theorem C117_angle : forall u rd, accurate u rd -> forall p name reg kw ss out, computed_angle rd p name reg kw = Ok (ss, out) ->
  exists n1 n2 kw1 kw2 rest, ss = Free [] n1 "Normal" kw1 :: Free [] n2 "Normal" kw2 :: rest /\ n1 <> n2 /\ List.Forall no_variable rest /\ In (Determ [] name out) rest /\
    forall e i x1 x2, aget (e n1) i = Fin x1 -> aget (e n2) i = Fin x2 -> x1 * x1 + x2 * x2 <> 0 ->
      exists th' th, aget (out e) i = Fin th' /\ Rabs th' <= PI * (1 + u) /\ - PI < th <= PI /\ Rabs (th' - th) <= u * Rabs th /\
        x1 = sqrt (x1 * x1 + x2 * x2) * sin th /\ x2 = sqrt (x1 * x1 + x2 * x2) * cos th.
Proof. exact angle_float. Qed.
Print Assumptions C117_angle.

(** it starts at the requested angle, up to a few rounding errors and to whole turns *)
Theorem C117_angle_start : forall u rd, accurate u rd -> forall p name reg kw ss out v, computed_angle rd p name reg kw = Ok (ss, out) -> requested kw (PNum v) ->
  forall e i t, at_start p ss e -> aget v i = Fin t -> exists th, aget (out e) i = Fin th /\ Rabs (sin th - sin t) <= 7 * u /\ Rabs (cos th - cos t) <= 7 * u.
Proof. exact angle_float_start. Qed.
Print Assumptions C117_angle_start.

(** and at exactly zero if none is requested *)
Theorem C117_angle_default : forall u rd, accurate u rd -> forall p name reg kw ss out, computed_angle rd p name reg kw = Ok (ss, out) -> not_requested kw ->
  forall e i, at_start p ss e -> aget (out e) i = Fin 0.
Proof. exact angle_float_default. Qed.
Print Assumptions C117_angle_default.

(** unit_disk: never undefined, in the disk and its square exact up to 7 u; the logarithm of the Jacobian is off by little except close to the edge *)
Theorem C117_disk : forall u rd, accurate u rd -> keeps_one rd -> forall p nx ny kw ss x y, computed_disk rd p nx ny kw = Ok (ss, (x, y)) ->
  exists n1 n2 kw1 kw2 rest q, ss = Free [] n1 "Uniform" kw1 :: Free [] n2 "Uniform" kw2 :: rest /\ List.Forall no_variable rest /\
    on_interval (-1) 1 kw1 /\ on_interval (-1) 1 kw2 /\ n1 = nx /\ In (Determ [] ny y) rest /\ potentials rest = [q] /\
    forall e i a b, aget (e n1) i = Fin a -> aget (e n2) i = Fin b -> -1 <= a <= 1 -> -1 <= b <= 1 ->
      aget (x e) i = Fin a /\
      (exists w, aget (y e) i = Fin w /\ 0 <= b * w /\ Rabs (w * w - b * b * (1 - a * a)) <= 7 * u /\ a * a + w * w <= 1 + 7 * u) /\
      (-1 < a < 1 -> 2 * u <= 1 - a * a ->
       exists g, aget (q e) i = Fin g /\ Rabs (g - ln (sqrt (1 - a * a))) <= u * (Rabs (ln (sqrt (1 - a * a))) + 2 / (1 - a * a))).
Proof. exact disk_float. Qed.
Print Assumptions C117_disk.

(** the documentation promises that x**2 + y**2 is less than one; in double precision it is not, neither exactly nor as computed *)
Theorem C117_disk_refuted : exists n1 n2 kw1 kw2 rest x y e i a b w, computed_disk double false "h" "k" [] = Ok (Free [] n1 "Uniform" kw1 :: Free [] n2 "Uniform" kw2 :: rest, (x, y)) /\
  aget (e n1) i = Fin a /\ aget (e n2) i = Fin b /\ -1 < a < 1 /\ -1 < b < 1 /\ nearest a = a /\ nearest b = b /\
  aget (x e) i = Fin a /\ aget (y e) i = Fin w /\ 1 < a * a + w * w /\ nearest (nearest (a * a) + nearest (w * w)) = 1.
Proof. exact disk_outside. Qed.
Print Assumptions C117_disk_refuted.

(** quad_limb_dark: the exact coefficients and the physical limits on them up to a few rounding errors; u1 is never negative *)
Theorem C117_limb_dark : forall u rd, accurate u rd -> forall p name kw ss out, computed_quad rd p name kw = Ok (ss, out) ->
  exists c n1 n2 kw1 kw2 rest f g, ss = c :: Free [] n1 "Uniform" kw1 :: Free [] n2 "Uniform" kw2 :: rest /\ no_variable c /\ n1 <> n2 /\ List.Forall no_variable rest /\
    on_interval 0 1 kw1 /\ on_interval 0 1 kw2 /\ In (Determ [] name out) rest /\ potentials ss = [] /\
    (forall e i s a b, ash (e n1) = Ok s -> ash (e n2) = Ok s -> aget (e n1) i = Fin a -> aget (e n2) i = Fin b -> 0 <= a ->
       ash (out e) = Ok (s ++ [2%nat]) /\
       (i (length s) = 0%nat -> aget (out e) i = Fin (f a b)) /\ (i (length s) = 1%nat -> aget (out e) i = Fin (g a b))) /\
    forall a b, 0 <= a <= 1 -> 0 <= b <= 1 ->
      Rabs (f a b - 2 * sqrt a * b) <= 10 * u /\ Rabs (g a b - sqrt a * (1 - 2 * b)) <= 30 * u /\
      0 <= f a b /\ f a b + g a b <= 1 + 40 * u /\ - (70 * u) <= f a b + 2 * g a b.
Proof. exact quad_float. Qed.
Print Assumptions C117_limb_dark.

(** it starts at the requested coefficients, up to a few rounding errors *)
Theorem C117_limb_dark_start : forall u rd, accurate u rd -> forall p name kw ss out v d, computed_quad rd p name kw = Ok (ss, out) -> requested kw (PNum v) -> ash v = Ok (d ++ [2%nat]) ->
  forall e i u1 u2, at_start p ss e -> aget v (set_ix (length d) 0 i) = Fin u1 -> aget v (set_ix (length d) 1 i) = Fin u2 -> 0 < u1 + u2 ->
    exists v1 v2, aget (out e) (set_ix (length d) 0 i) = Fin v1 /\ aget (out e) (set_ix (length d) 1 i) = Fin v2 /\
      Rabs (v1 - u1) <= 11 * u * Rabs u1 /\ Rabs (v2 - u2) <= 17 * u * (u1 + u2 + Rabs u1).
Proof. exact quad_float_start. Qed.
Print Assumptions C117_limb_dark_start.

(** in double precision u1 + u2 can exceed one *)
Theorem C117_limb_dark_refuted : exists c n1 n2 kw1 kw2 rest out e i a b v1 v2, computed_quad double false "u" [] = Ok (c :: Free [] n1 "Uniform" kw1 :: Free [] n2 "Uniform" kw2 :: rest, out) /\
  (forall j, aget (e n1) j = Fin a) /\ (forall j, aget (e n2) j = Fin b) /\ 0 <= a <= 1 /\ 0 < b < 1 /\ nearest a = a /\ nearest b = b /\
  aget (out e) (set_ix 0 0 i) = Fin v1 /\ aget (out e) (set_ix 0 1 i) = Fin v2 /\ 1 < v1 + v2.
Proof. exact quad_unphysical. Qed.
Print Assumptions C117_limb_dark_refuted.

(** impact_parameter: a relative error of 4 u, never negative *)
Theorem C117_impact : forall u rd, accurate u rd -> forall p name ror kw ss out, computed_impact rd p name ror kw = Ok (ss, out) ->
  exists n kw1 rest, ss = Free [] n "Uniform" kw1 :: rest /\ List.Forall no_variable rest /\ potentials ss = [] /\ on_interval 0 1 kw1 /\ In (Determ [] name out) rest /\
    forall e i k a, aget ror i = Fin k -> 0 <= k -> aget (e n) i = Fin a -> 0 <= a <= 1 ->
      exists b, aget (out e) i = Fin b /\ Rabs (b - a * (1 + k)) <= 4 * u * (a * (1 + k)) /\ 0 <= b <= (1 + 4 * u) * (1 + k).
Proof. exact impact_float. Qed.
Print Assumptions C117_impact.

(** it starts at the requested value with a relative error of 3 u *)
Theorem C117_impact_start : forall u rd, accurate u rd -> forall p name ror kw ss out v, computed_impact rd p name ror kw = Ok (ss, out) -> requested kw (PNum v) ->
  forall e i k b, at_start p ss e -> aget ror i = Fin k -> 0 <= k -> aget v i = Fin b -> exists b', aget (out e) i = Fin b' /\ Rabs (b' - b) <= 3 * u * Rabs b.
Proof. exact impact_float_start. Qed.
Print Assumptions C117_impact_start.

(** double precision *)
Example C117_example : accurate half_ulp double /\ keeps_one double /\ half_ulp <= / 10 ^ 15 /\
  (exists ss out, computed_angle double false "phi" (Some (alit (Fin 10))) ex_kw = Ok (ss, out)) /\ requested ex_kw (PNum (alit (Fin 1))) /\
  (exists ss xy, computed_disk double false "h" "k" (ex_kw2 (1 / 2) (1 / 2)) = Ok (ss, xy)) /\
  (exists ss out e, computed_quad double true "u" (ex_kw2 (3 / 10) (2 / 10)) = Ok (ss, out) /\ requested (ex_kw2 (3 / 10) (2 / 10)) (PNum (ex_pair (3 / 10) (2 / 10))) /\
     ash (ex_pair (3 / 10) (2 / 10)) = Ok ([] ++ [2%nat]) /\ at_start true ss e) /\
  exists ss out, computed_impact double false "b" (alit (Fin (1 / 10))) ex_kw = Ok (ss, out).
Proof. exact float_calls. Qed.

