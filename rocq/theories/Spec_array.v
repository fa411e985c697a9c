(** * Specification vocabulary for array arguments *)
From Coq Require Import Reals List Bool Arith ZArith.
From Verif Require Import Num CoreOps Inst M_units M_kepler M_fin Spec_orbit Spec_params.
Import ListNotations.
Open Scope R_scope.

(** a scalar, or a vector with one entry per planet *)
Definition per_planet (n : nat) (a : tens) : Prop := twf a /\ (ash a = Ok [] \/ ash a = Ok [n]).
Definition opt_per_planet (n : nat) (a : option tens) : Prop :=
  match a with None => True | Some v => per_planet n v end.
Definition qty_per_planet (n : nat) (a : option (qty tens)) : Prop :=
  match a with None => True | Some q => per_planet n (qv q) end.

(** as many entries as planets; a single planet may be described by scalars *)
Definition one_each (n : nat) (a : tens) : Prop := ash a = Ok [n] \/ (n = 1%nat /\ ash a = Ok []).
(** constructor arguments of a system of n planets: every argument is a scalar
    or has n entries, and the argument that sets the time scale has as many
    entries as planets *)
Record planet_args (n : nat) (x : kargs tens) : Prop := {
  pl_period : qty_per_planet n (ka_period x); pl_a : qty_per_planet n (ka_a x);
  pl_t0 : opt_per_planet n (ka_t0 x); pl_tper : opt_per_planet n (ka_tper x);
  pl_incl : opt_per_planet n (ka_incl x); pl_b : opt_per_planet n (ka_b x);
  pl_duration : qty_per_planet n (ka_duration x);
  pl_ecc : opt_per_planet n (ka_ecc x); pl_omega : opt_per_planet n (ka_omega x);
  pl_sin : opt_per_planet n (ka_sin_omega x); pl_cos : opt_per_planet n (ka_cos_omega x);
  pl_Omega : opt_per_planet n (ka_Omega x);
  pl_mp : qty_per_planet n (ka_m_planet x); pl_ms : qty_per_planet n (ka_m_star x);
  pl_rs : qty_per_planet n (ka_r_star x); pl_rho : qty_per_planet n (ka_rho_star x);
  pl_ror : opt_per_planet n (ka_ror x);
  pl_scale : match ka_period x, ka_a x with
             | Some p, _ => one_each n (qv p)
             | None, Some a => one_each n (qv a)
             | None, None => True
             end
}.

(** the index of planet j, and of (time m, planet j); last axis first *)
Definition at_planet (j : nat) : idx := fun d => match d with O => j | _ => O end.
Definition at_time (m : nat) : idx := fun d => match d with O => m | _ => O end.
Definition at_tp (m j : nat) : idx := fun d => match d with O => j | S O => m | _ => O end.

(** the shape (N, n) with axes of length one removed; last axis first *)
Definition squeezed (s : shape) : shape := filter (fun d => negb (Nat.eqb d 1)) s.
(** where entry (m, j) of an N x n array is found after squeezing *)
Definition at_squeezed (n N m j : nat) : idx :=
  if Nat.eqb n 1 then (if Nat.eqb N 1 then at_planet 0 else at_time m)
  else if Nat.eqb N 1 then at_planet j else at_tp m j.

(** a vector of finite numbers, and one number as an array *)
Definition vector (n : nat) (v : nat -> R) : tens := mkA (Ok [n]) (fun i => Fin (v (if Nat.eqb n 1 then O else i O))).
Definition scalar (v : R) : tens := alit (Fin v).

(** x holds the arguments xs 0, ..., xs (n-1) of n single-planet orbits
    os 0, ..., os (n-1), each of them with physical attributes *)
Record system (k : consts) (n : nat) (x : kargs tens) (xs : nat -> kargs R) (os : nat -> orbit R) : Prop := {
  sy_n : (0 < n)%nat;
  sy_args : planet_args n x;
  sy_at : forall j, (j < n)%nat -> args_at (at_planet j) x = fin_args (xs j);
  sy_init : forall j, (j < n)%nat -> kep_init k (xs j) = Ok (os j);
  sy_phys : forall j, (j < n)%nat -> physical (os j);
  sy_dur : forall j, (j < n)%nat -> no_ecc_duration (xs j)
}.
(** a has the value v j for planet j *)
Definition planet_values (n : nat) (a : tens) (v : nat -> R) : Prop :=
  per_planet n a /\ forall j, (j < n)%nat -> aget a (at_planet j) = Fin (v j).

(** the planet is in front of the star and its disk of radius r touches the
    star's *)
Definition transits (k : consts) (o : orbit R) (r t : R) : Prop :=
  let p := pos k o Relative t None false in
  0 < vz p /\ sqrt (vx p * vx p + vy p * vy p) <= o_r_star o + r.
(** an optional exposure time *)
Definition pad_of (e : option R) : R := match e with None => 0%R | Some v => v end.

(** N times *)
Definition is_vector (N : nat) (t : tens) : Prop := twf t /\ ash t = Ok [N].
(** X is an N x n array with axes of length one removed, whose entry (m, j)
    is f m j *)
Definition is_table (n N : nat) (X : tens) (f : nat -> nat -> fl) : Prop :=
  ash X = Ok (squeezed [n; N]) /\
  forall m j, (m < N)%nat -> (j < n)%nat -> aget X (at_squeezed n N m j) = f m j.
Definition is_table3 (n N : nat) (V : tens * tens * tens) (f : nat -> nat -> fl * fl * fl) : Prop :=
  is_table n N (fst (fst V)) (fun m j => fst (fst (f m j))) /\
  is_table n N (snd (fst V)) (fun m j => snd (fst (f m j))) /\
  is_table n N (snd V) (fun m j => snd (f m j)).
Definition opt_at_planet (j : nat) (a : option tens) : option fl := option_map (fun v : tens => aget v (at_planet j)) a.

(** an optional argument: absent counts as the value 0 *)
Definition opt_values (n : nat) (a : option tens) (v : nat -> R) : Prop :=
  match a with None => forall j, v j = 0%R | Some a => planet_values n a v end.

(** what the contact point solver cp answers when it is asked about a planet of
    radius r on the eccentric orbit o: mean anomalies of first and last contact
    and a flag that is zero on success *)
Definition solver_answer (cp : fl -> fl -> fl -> fl -> fl -> fl -> fl -> fl * fl * fl) (o : orbit R) (r : R) : fl * fl * fl :=
  match o_ecc o with
  | None => (NaN, NaN, Fin 0)
  | Some d => cp (Fin (o_a o)) (Fin (e_ecc d)) (Fin (e_cosw d)) (Fin (e_sinw d))
                 (Fin (o_cos_incl o)) (Fin (o_sin_incl o)) (Fin (o_r_star o + r))
  end.
(** the solver succeeds: its mean anomalies are those of the times t0 - al and
    t0 + be (modulo the period) *)
Definition solved (cp : fl -> fl -> fl -> fl -> fl -> fl -> fl -> fl * fl * fl) (o : orbit R) (r al be : R) : Prop :=
  exists m1 m2 : Z, solver_answer cp o r =
    (Fin (2 * PI / o_period o * (o_t0 o - al - o_tper o) + IZR m1 * (2 * PI)),
     Fin (2 * PI / o_period o * (o_t0 o + be - o_tper o) + IZR m2 * (2 * PI)), Fin 0).
(** the planet transits exactly from al before until be after every mid-transit *)
Definition transit_interval (k : consts) (o : orbit R) (r al be : R) : Prop :=
  0 <= al /\ 0 <= be /\
  forall s, transits k o r s <-> exists q : Z, o_t0 o + IZR q * o_period o - al <= s <= o_t0 o + IZR q * o_period o + be.
