(** * All angles are equally probable: property C105 *)
From Coq Require Import Reals List Bool Arith ZArith String.
From Verif Require Import Num CoreOps Inst M_kwargs M_tensor M_dist Spec_dist Spec_prior Spec_plane L_wedge5.
Import ListNotations.
Open Scope R_scope.

(** the two variables have standard normal density; multiplied by the exponential of the potential, the angles up to th get the fraction (th + PI) / (2 PI) of the total weight, whatever the regularization *)
Theorem C105_uniform : forall p name reg kw ss out, angle p name reg kw = Ok (ss, out) -> standard_normal kw ->
  exists n1 n2 kw1 kw2 rest, ss = Free [] n1 "Normal" kw1 :: Free [] n2 "Normal" kw2 :: rest /\ List.Forall no_variable rest /\ standard_normal kw1 /\ standard_normal kw2 /\
    forall i, (forall q, reg = Some q -> exists k, aget q i = Fin k /\ 0 <= k) -> exists Th V T,
      (forall e a b, aget (e n1) i = Fin a -> aget (e n2) i = Fin b -> a * a + b * b <> 0 -> aget (out e) i = Fin (Th a b) /\ 0 < V a b /\
         ((potentials rest = [] /\ V a b = 1) \/ exists f, potentials rest = [f] /\ aget (f e) i = Fin (ln (V a b)))) /\
      0 < T /\ (reg = None -> T = 1) /\ over_plane (fun a b => normal_density a * normal_density b * V a b) T /\
      forall th, - PI <= th <= PI -> over_plane (fun a b => one_if (Rle_dec (Th a b) th) * (normal_density a * normal_density b * V a b)) (T * ((th + PI) / (2 * PI))).
Proof. exact angle_weight. Qed.
Print Assumptions C105_uniform.

Example C105_example : exists ss out, angle false "w" (Some (alit (Fin 10))) [] = Ok (ss, out) /\ standard_normal [] /\
  (forall i, exists k, aget (alit (Fin 10)) i = Fin k /\ 0 <= k) /\ potentials ss <> [].
Proof. exact angle_prior_example. Qed.
