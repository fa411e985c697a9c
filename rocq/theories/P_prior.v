(** * How unit_disk, quad_limb_dark and impact_parameter distribute probability: property C104 *)
From Coq Require Import Reals List Bool Arith ZArith String.
From Coquelicot Require Import Coquelicot.
From Verif Require Import Num CoreOps Inst M_kwargs M_tensor M_dist Spec_dist Spec_prior L_prior2.
Import ListNotations.
Local Notation length := List.length.
Open Scope R_scope.

(** unit_disk: the weight of the latent variables, carried over to (x, y), is the area; the disk of radius r gets the fraction r^2 *)
Theorem C104_disk : forall p nx ny kw ss x y, unit_disk p nx ny kw = Ok (ss, (x, y)) ->
  exists n1 n2 kw1 kw2 rest q X Y W, ss = Free [] n1 "Uniform" kw1 :: Free [] n2 "Uniform" kw2 :: rest /\ List.Forall no_variable rest /\
    on_interval (-1) 1 kw1 /\ on_interval (-1) 1 kw2 /\ potentials rest = [q] /\
    (forall e i a b, aget (e n1) i = Fin a -> aget (e n2) i = Fin b -> -1 < a < 1 -> -1 < b < 1 ->
       aget (x e) i = Fin (X a b) /\ aget (y e) i = Fin (Y a b) /\ 0 < W a b /\ aget (q e) i = Fin (ln (W a b))) /\
    (forall G m, (forall u, -1 < u < 1 -> ex_RInt (G u) (- sqrt (1 - u * u)) (sqrt (1 - u * u))) ->
       is_RInt (fun u => RInt (G u) (- sqrt (1 - u * u)) (sqrt (1 - u * u))) (-1) 1 m -> weighs (-1) 1 X Y W G m) /\
    (forall r, 0 <= r <= 1 -> weighs (-1) 1 X Y W (fun u v => one_if (Rle_dec (u * u + v * v) (r * r))) (PI * (r * r))).
Proof. exact disk_weight. Qed.
Print Assumptions C104_disk.

(** quad_limb_dark: the weight carried over to (u1, u2) is the area of the triangle 0 <= u1 <= 2 (u1 + u2), u1 + u2 <= 1; laws with u1 + u2 <= s get the fraction s^2, and the mean law is u1 = 2/3, u2 = 0 *)
Theorem C104_law : forall p name kw ss out, quad_limb_dark p name kw = Ok (ss, out) ->
  exists c n1 n2 kw1 kw2 rest U1 U2, ss = c :: Free [] n1 "Uniform" kw1 :: Free [] n2 "Uniform" kw2 :: rest /\ no_variable c /\ List.Forall no_variable rest /\
    on_interval 0 1 kw1 /\ on_interval 0 1 kw2 /\ potentials ss = [] /\
    (forall e i s a b, ash (e n1) = Ok s -> ash (e n2) = Ok s -> aget (e n1) i = Fin a -> aget (e n2) i = Fin b -> 0 <= a ->
       (i (length s) = 0%nat -> aget (out e) i = Fin (U1 a b)) /\ (i (length s) = 1%nat -> aget (out e) i = Fin (U2 a b))) /\
    (forall G, (forall u v, continuity_2d_pt G u v) ->
       weighs 0 1 U1 U2 (fun _ _ => 1) G (RInt (fun s => RInt (fun v => G v (s - v)) 0 (2 * s)) 0 1)) /\
    (forall s, 0 <= s <= 1 -> weighs 0 1 U1 U2 (fun _ _ => 1) (fun u1 u2 => one_if (Rle_dec (u1 + u2) s)) (s * s)) /\
    weighs 0 1 U1 U2 (fun _ _ => 1) (fun _ _ => 1) 1 /\
    weighs 0 1 U1 U2 (fun _ _ => 1) (fun u1 _ => u1) (2 / 3) /\ weighs 0 1 U1 U2 (fun _ _ => 1) (fun _ u2 => u2) 0.
Proof. exact law_weight. Qed.
Print Assumptions C104_law.

(** impact_parameter: averages are averages over the interval from 0 to 1 + ror *)
Theorem C104_impact : forall p name ror kw ss out, impact_parameter p name ror kw = Ok (ss, out) ->
  exists n kw1 rest, ss = Free [] n "Uniform" kw1 :: rest /\ List.Forall no_variable rest /\ potentials ss = [] /\ on_interval 0 1 kw1 /\
    forall i k, aget ror i = Fin k -> -1 < k -> exists B, (forall e a, aget (e n) i = Fin a -> aget (out e) i = Fin (B a)) /\
      forall G, ex_RInt G 0 (1 + k) -> is_RInt (fun a => G (B a)) 0 1 (RInt G 0 (1 + k) / (1 + k)).
Proof. exact impact_weight. Qed.
Print Assumptions C104_impact.

Example C104_example : exists s x y s' out s'' b, unit_disk false "h" "k" [] = Ok (s, (x, y)) /\ quad_limb_dark false "u" [] = Ok (s', out) /\
  impact_parameter false "b" (alit (Fin (1 / 10))) [] = Ok (s'', b) /\ aget (alit (Fin (1 / 10))) (fun _ => O) = Fin (1 / 10).
Proof. exact prior_example. Qed.
