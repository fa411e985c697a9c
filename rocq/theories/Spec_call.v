(** * Specification vocabulary for calls with positional arguments (C98) *)
From Coq Require Import Reals List Bool String.
From Verif Require Import Num M_units M_kepler M_kwargs M_simple Spec_kwargs.
Import ListNotations.
Open Scope string_scope.

(** the order in which KeplerianOrbit and SimpleTransitOrbit take positional
    arguments *)
Definition kepler_order : list string :=
  ["period"; "a"; "t0"; "t_periastron"; "incl"; "b"; "duration"; "ecc"; "omega"; "sin_omega"; "cos_omega"; "Omega";
   "m_planet"; "m_star"; "r_star"; "rho_star"; "ror"; "model"].
Definition simple_order : list string := ["period"; "duration"; "t0"; "b"; "r_star"; "ror"].
(** positional arguments, written as keyword arguments *)
Definition named {A} (order : list string) (args : list A) : list (string * A) := combine order args.
(** Python accepts the call: every argument has a name and no name is given twice *)
Definition bindable {A} (order : list string) (args : list A) (kw : list (string * A)) : Prop :=
  (List.length args <= List.length order)%nat /\ NoDup (map fst (named order args ++ kw)).

Section G.
Context {T : Type}.
(** a parameter with a default that was given as v, or not given *)
Definition given_or_not (l : list (string * kval T)) (n : string) (v : option T) : Prop :=
  match v with Some a => exists q, In (n, KNum q) l /\ qv q = a | None => omitted l n end.
(** the arguments l, all of them known, give the parameters x of SimpleTransitOrbit *)
Record simple_given (l : list (string * kval T)) (x : sargs T) : Prop := {
  sg_once : NoDup (map fst l); sg_known : forall n, In n (map fst l) -> In n simple_order;
  sg_period : exists q, In ("period", KNum q) l /\ qv q = sa_period x;
  sg_duration : exists q, In ("duration", KNum q) l /\ qv q = sa_duration x;
  sg_t0 : given_or_not l "t0" (sa_t0 x); sg_b : given_or_not l "b" (sa_b x);
  sg_r_star : given_or_not l "r_star" (sa_r_star x); sg_ror : given_or_not l "ror" (sa_ror x) }.
(** the same arguments but for the units of the numbers *)
Definition same_number (a b : string * kval T) : Prop :=
  fst a = fst b /\ match snd a, snd b with KNum p, KNum q => qv p = qv q | KNone, KNone => True | KUnit _, KUnit _ => True | _, _ => False end.
End G.
