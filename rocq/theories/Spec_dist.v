(** * Specification vocabulary for the distributions *)
From Coq Require Import Reals List Bool Arith ZArith String.
From Coquelicot Require Import Coquelicot.
From Verif Require Import Num CoreOps Inst M_limbdark M_dist.
Import ListNotations.
Local Notation length := List.length.
Open Scope R_scope.

(** the keyword under which the version of PyMC in use expects the starting
    value, and the one it does not know *)
Definition start_keyword (pymc3 : bool) : string := if pymc3 then "testval" else "initval".
Definition wrong_keyword (pymc3 : bool) : string := if pymc3 then "initval" else "testval".
(** the caller asked for the starting value v *)
Definition requested (kw : dict) (v : pyv) : Prop :=
  dget "initval" kw = Some v \/ (dget "initval" kw = None /\ dget "testval" kw = Some v).
Definition not_requested (kw : dict) : Prop := dget "initval" kw = None /\ dget "testval" kw = None.
(** kw' is what becomes of the caller's keywords kw: the starting value under
    the right keyword, the given bounds, everything else unchanged *)
Definition forwarded (pymc3 : bool) (bounds : dict) (start : pyv) (kw kw' : dict) : Prop :=
  dget (start_keyword pymc3) kw' = Some start /\ dget (wrong_keyword pymc3) kw' = None /\
  (forall k v, In (k, v) bounds -> dget k kw' = Some v) /\
  (forall k, k <> "initval"%string -> k <> "testval"%string -> ~ In k (map fst bounds) -> dget k kw' = dget k kw).
Definition between (lo hi : R) : dict := [("lower"%string, PNum (alit (Fin lo))); ("upper"%string, PNum (alit (Fin hi)))].
(** the random variable declared with the keywords kw ranges over [lo, hi] *)
Definition on_interval (lo hi : R) (kw : dict) : Prop := forall k v, In (k, v) (between lo hi) -> dget k kw = Some v.
(** the keyword that impact_parameter adds when no [shape] is given *)
Definition shape_added (p : bool) (ror : tens) (kw : dict) : dict :=
  if p then [] else match dget "shape" kw, ash ror with None, Ok s => [("shape"%string, PShape s)] | _, _ => [] end.
(** the value of the [shape] keyword is left out, an integer or a tuple *)
Definition shape_is (kw : dict) (s : shape) : Prop :=
  (dget "shape" kw = None /\ s = []) \/ dget "shape" kw = Some (PShape s) \/ exists n, dget "shape" kw = Some (PInt n) /\ s = [n].
(** every random variable has its starting value *)
Definition at_start (pymc3 : bool) (ss : list stmt) (e : env) : Prop :=
  forall sc n c kw x, In (Free sc n c kw) ss -> dget (start_keyword pymc3) kw = Some (PNum x) -> e n = x.
(** not a random variable *)
Definition no_variable (s : stmt) : Prop := forall sc n c kw, s <> Free sc n c kw.
(** the log-probability added by a list of statements, beside that of the
    random variables themselves *)
Definition potentials (ss : list stmt) : list (env -> tens) :=
  flat_map (fun s => match s with Potential _ _ f => [f] | _ => [] end) ss.

(** determinant of the derivative of (f, g) at (a, b) *)
Definition jacobian (f g : R -> R -> R) (a b J : R) : Prop :=
  exists fa fb ga gb, is_derive (fun t => f t b) a fa /\ is_derive (fun t => f a t) b fb /\
    is_derive (fun t => g t b) a ga /\ is_derive (fun t => g a t) b gb /\ J = fa * gb - fb * ga.
(** (f, g) maps the points satisfying P one to one onto those satisfying Q *)
Definition one_to_one (f g : R -> R -> R) (P Q : R -> R -> Prop) : Prop :=
  (forall a b, P a b -> Q (f a b) (g a b)) /\
  forall x y, Q x y -> exists a b, P a b /\ f a b = x /\ g a b = y /\ forall a' b', P a' b' -> f a' b' = x -> g a' b' = y -> a' = a /\ b' = b.
(** brightness is nowhere negative and does not increase towards the limb *)
Definition physical_law (I : R -> R) : Prop :=
  (forall mu, 0 <= mu <= 1 -> 0 <= I mu) /\ forall mu mu', 0 <= mu -> mu <= mu' -> mu' <= 1 -> I mu <= I mu'.
