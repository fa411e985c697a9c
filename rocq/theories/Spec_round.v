(** * Specification vocabulary: attributes fed back into the constructor (C03) *)
From Coq Require Import Reals Bool.
From Verif Require Import Num Inst M_units M_kepler Spec_params.
Open Scope R_scope.

(** the values the constructor fills in for what is left out are the orbit's:
    the radius is one unless it or the mass is given, and so is the mass if
    nothing else says what it is *)
Definition defaults_agree (o : orbit R) (ua up urho ur um : bool) : Prop :=
  (ur = false /\ um = false -> o_r_star o = 1) /\
  (ua && up = false -> urho = false /\ ur = false /\ um = false -> o_m_star o = 1).
