(** * Specification vocabulary: parameters that approach a limit *)
From Coq Require Import Reals.
From Verif Require Import Num CoreOps Inst M_units M_kepler M_fin M_tensor Spec_orbit Spec_params Spec_array Spec_light.
Open Scope R_scope.

(** an optional parameter: given everywhere or nowhere, and if given approaching its limit *)
Definition given_tends {A} (to : (nat -> A) -> A -> Prop) (us : nat -> option A) (v : option A) : Prop :=
  match v with
  | None => forall n, us n = None
  | Some a => exists as_, (forall n, us n = Some (as_ n)) /\ to as_ a
  end.
(** a quantity keeps its unit *)
Definition qty_tends (qs : nat -> qty R) (q : qty R) : Prop :=
  (forall n, qu (qs n) = qu q) /\ Un_cv (fun n => qv (qs n)) (qv q).

(** arguments of the constructor (keplerian.py:75-96) that approach the arguments x *)
Record args_tend (xs : nat -> kargs R) (x : kargs R) : Prop := {
  at_period : given_tends qty_tends (fun n => ka_period (xs n)) (ka_period x);
  at_a : given_tends qty_tends (fun n => ka_a (xs n)) (ka_a x);
  at_tmid : given_tends Un_cv (fun n => ka_t0 (xs n)) (ka_t0 x);
  at_tper : given_tends Un_cv (fun n => ka_tper (xs n)) (ka_tper x);
  at_incl : given_tends Un_cv (fun n => ka_incl (xs n)) (ka_incl x);
  at_b : given_tends Un_cv (fun n => ka_b (xs n)) (ka_b x);
  at_duration : given_tends qty_tends (fun n => ka_duration (xs n)) (ka_duration x);
  at_ecc : given_tends Un_cv (fun n => ka_ecc (xs n)) (ka_ecc x);
  at_omega : given_tends Un_cv (fun n => ka_omega (xs n)) (ka_omega x);
  at_sin_omega : given_tends Un_cv (fun n => ka_sin_omega (xs n)) (ka_sin_omega x);
  at_cos_omega : given_tends Un_cv (fun n => ka_cos_omega (xs n)) (ka_cos_omega x);
  at_Omega : given_tends Un_cv (fun n => ka_Omega (xs n)) (ka_Omega x);
  at_m_planet : given_tends qty_tends (fun n => ka_m_planet (xs n)) (ka_m_planet x);
  at_m_star : given_tends qty_tends (fun n => ka_m_star (xs n)) (ka_m_star x);
  at_r_star : given_tends qty_tends (fun n => ka_r_star (xs n)) (ka_r_star x);
  at_rho_star : given_tends qty_tends (fun n => ka_rho_star (xs n)) (ka_rho_star x);
  at_ror : given_tends Un_cv (fun n => ka_ror (xs n)) (ka_ror x);
  at_m_planet_units : forall n, ka_m_planet_units (xs n) = ka_m_planet_units x;
  at_rho_star_units : forall n, ka_rho_star_units (xs n) = ka_rho_star_units x
}.

(** an eccentric orbit given by its duration has one that some impact parameter
    other than 0 yields: the number under the root of keplerian.py:246-257 is
    defined and positive *)
Definition duration_fits (k : consts) (x : kargs R) (o : orbit R) : Prop :=
  no_ecc_duration x \/ exists q d, ka_duration x = Some q /\ to_unit q (u_day k) = Ok d /\
    let F := (1 + ecc_of o * sinw_of o) / (1 - ecc_of o * ecc_of o) in
    let c := sin (PI * d * F / o_period o) in
    let u := o_a_planet o / o_r_star o in
    (c * F) * (c * F) <> 1 /\ 0 < ((u * c) * (u * c) - 1) / ((c * F) * (c * F) - 1).

(** the attributes approach those of o (omega is left out: given by its sine
    and cosine it jumps by a full turn at 180 degrees) *)
Record attributes_tend (os : nat -> orbit R) (o : orbit R) : Prop := {
  tn_a : Un_cv (fun n => o_a (os n)) (o_a o);
  tn_period : Un_cv (fun n => o_period (os n)) (o_period o);
  tn_rho_star : Un_cv (fun n => o_rho_star (os n)) (o_rho_star o);
  tn_r_star : Un_cv (fun n => o_r_star (os n)) (o_r_star o);
  tn_m_star : Un_cv (fun n => o_m_star (os n)) (o_m_star o);
  tn_m_planet : Un_cv (fun n => o_m_planet (os n)) (o_m_planet o);
  tn_a_star : Un_cv (fun n => o_a_star (os n)) (o_a_star o);
  tn_a_planet : Un_cv (fun n => o_a_planet (os n)) (o_a_planet o);
  tn_K0 : Un_cv (fun n => o_K0 (os n)) (o_K0 o);
  tn_ecc : Un_cv (fun n => ecc_of (os n)) (ecc_of o);
  tn_cosw : Un_cv (fun n => cosw_of (os n)) (cosw_of o);
  tn_sinw : Un_cv (fun n => sinw_of (os n)) (sinw_of o);
  tn_b : Un_cv (fun n => o_b (os n)) (o_b o);
  tn_incl : Un_cv (fun n => o_incl (os n)) (o_incl o);
  tn_cos_incl : Un_cv (fun n => o_cos_incl (os n)) (o_cos_incl o);
  tn_sin_incl : Un_cv (fun n => o_sin_incl (os n)) (o_sin_incl o);
  tn_tper : Un_cv (fun n => o_tper (os n)) (o_tper o)
}.

(** a vector approaches a vector *)
Definition vec_tends (vs : nat -> R * R * R) (v : R * R * R) : Prop :=
  Un_cv (fun n => vx (vs n)) (vx v) /\ Un_cv (fun n => vy (vs n)) (vy v) /\ Un_cv (fun n => vz (vs n)) (vz v).

(** N x n tables of numbers that approach a table entry by entry *)
Definition tables_tend (n N : nat) (Xs : nat -> res tens) (X : res tens) : Prop :=
  exists fs f, (forall q, exists A, Xs q = Ok A /\ light_table n N A (fs q)) /\ (exists A, X = Ok A /\ light_table n N A f) /\
    forall m j, (m < N)%nat -> (j < n)%nat -> Un_cv (fun q => fs q m j) (f m j).
