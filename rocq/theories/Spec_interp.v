(** * Specification vocabulary for interpolated light curves *)
From Coq Require Import Reals List Bool Arith ZArith.
From Verif Require Import Num CoreOps Inst CoreFlux M_units M_kepler M_tensor M_limbdark Spec_orbit Spec_array Spec_light.
Import ListNotations.
Open Scope R_scope.

(** v is the value at phase ph of the cubic polynomial through the four points
    of the graph of g at phases (i - 1) h, i h, (i + 1) h, (i + 2) h, where
    i h <= ph < (i + 1) h *)
Definition four_point (g : R -> R) (h ph v : R) : Prop :=
  exists (i : nat) a0 a1 a2 a3,
    INR i * h <= ph < (INR i + 1) * h /\
    (forall k, In k [-1; 0; 1; 2] -> cubic a0 a1 a2 a3 ((INR i + k) * h) = g ((INR i + k) * h)) /\
    v = cubic a0 a1 a2 a3 ph.
(** ph is the phase of t: the time since the last of the times t0 + z P *)
Definition phase (t0 P t ph : R) : Prop := 0 <= ph < P /\ exists z : Z, t = t0 + IZR z * P + ph.
(** a light curve computed number by number: asked about a vector of times xs
    it returns the table of the numbers f j (xs m) *)
Definition pointwise (n : nat) (base : tens -> res tens) (f : nat -> R -> R) : Prop :=
  forall xs : list R, exists Y, base (avec xs) = Ok Y /\ light_table n (length xs) Y (fun m j => f j (nth m xs 0)).
(** one number if there is one planet, a vector if there are several *)
Definition described (n : nat) (a : tens) (v : nat -> R) : Prop :=
  (if Nat.leb n 1 then ash a = Ok [] else exists d, (n <= d)%nat /\ ash a = Ok [d]) /\
  forall i, (i O < n)%nat -> aget a i = Fin (v (i O)).
(** N observation times *)
Definition observed (N : nat) (t : tens) (ts : nat -> R) : Prop :=
  ash t = Ok [N] /\ forall m, (m < N)%nat -> aget t (at_time m) = Fin (ts m).
(** the number of planets is given, or known from the orbit *)
Definition counted (num_planets : option Z) (test_value : option nat) (n : nat) : Prop :=
  match num_planets with
  | Some z => Z.of_nat n = Z.max 1 z
  | None => match test_value with Some q => n = Nat.max 1 q | None => False end
  end.
(** InterpolatedLightCurve set up for n planets with transit times T0 and
    periods P on the light curve f, with Q intermediate phases *)
Record interpolating (n : nat) (base : tens -> res tens) (Q : Z) (num_planets : option Z) (test_value : option nat)
    (t0 period : tens) (f : nat -> R -> R) (T0 P : nat -> R) : Prop := {
  ip_base : exists p, (n <= p)%nat /\ pointwise p base f;
  ip_grid : (0 <= Q)%Z;
  ip_count : counted num_planets test_value n;
  ip_t0 : described n t0 T0;
  ip_period : described n period P;
  ip_pos : forall j, (j < n)%nat -> 0 < P j
}.
(** times of any shape s, in row-major order ts 0, ts 1, ... *)
Definition recorded (s : shape) (t : tens) (ts : nat -> R) : Prop :=
  ash t = Ok s /\ forall m, (m < prod s)%nat -> aget t (unlin s m) = Fin (ts m).
(** where planet j of n at the time with index i is found: after the first axis
    if there is one planet, at the end if there are several *)
Definition place (n : nat) (s : shape) (i : idx) (j : nat) : idx :=
  if Nat.leb n 1 then fun d => if Nat.ltb d (length s - 1) then i d else if Nat.eqb d (length s - 1) then O else i (Nat.pred d) else cons_ix j i.
Definition placed (n : nat) (s : shape) : shape :=
  if Nat.leb n 1 then removelast s ++ [1%nat; last s O] else n :: s.
