(** * Specification vocabulary for light curves *)
From Coq Require Import Reals List Bool Arith ZArith.
From Coquelicot Require Import Coquelicot.
From Verif Require Import Num CoreOps Inst CoreFlux M_units M_kepler M_tensor M_limbdark Spec_orbit Spec_array.
Import ListNotations.
Open Scope R_scope.

(** the quadratic limb darkening law *)
Definition intensity (u1 u2 mu : R) : R := 1 - u1 * (1 - mu) - u2 * ((1 - mu) * (1 - mu)).
(** the flux of the star without a planet *)
Definition disk_flux (u1 u2 : R) : R := 2 * PI * RInt (fun rho => intensity u1 u2 (sqrt (1 - rho * rho)) * rho) 0 1.
(** brightness nowhere negative *)
Definition bright (u1 u2 : R) : Prop := forall mu, 0 <= mu <= 1 -> 0 <= intensity u1 u2 mu.
(** relative flux when a dark disk of radius r (in stellar radii) is at
    projected distance b, in front of the star iff los is positive *)
Definition rel_flux (u1 u2 b r los : R) : R :=
  if Rlt_dec 0 los then visible_flux (intensity u1 u2) (Rabs b) (Rabs r) / disk_flux u1 u2 - 1 else 0.

(** i is an index into an array of shape s *)
Definition inside (s : shape) (i : idx) : Prop := forall k, (k < length s)%nat -> (i k < nth k s 0)%nat.
(** element number l of an array in row-major order *)
Definition flat {A} (x : arr A) (l : nat) : A :=
  match ash x with Ok s => aget x (unlin s l) | Err _ => aget x ix0 end.
(** x has n elements; element j is v j *)
Definition elements (n : nat) (x : tens) (v : nat -> R) : Prop :=
  (exists s, ash x = Ok s /\ prod s = n) /\ forall j, (j < n)%nat -> flat x j = Fin (v j).
(** X lists, planet by planet within time by time, the numbers f j (ts i) *)
Definition lists (n : nat) (s : shape) (ts : idx -> R) (X : tens) (sh : shape) (f : nat -> R -> R) : Prop :=
  ash X = Ok sh /\
  forall i, inside (n :: s) i -> flat X (lin (n :: s) i) = Fin (f (i O) (ts (fun k => i (S k)))).
(** the orbit object answers the position of each of its n planets at each of
    the times it is asked about, whatever the shape of the array of times; the
    position of planet j at time t is P j t *)
Definition answers (A : orbit_api) (light_delay : bool) (n : nat) (P : nat -> R -> R * R * R) : Prop :=
  forall s t ts, ash t = Ok s -> twf t -> (forall i, inside s i -> aget t i = Fin (ts i)) ->
  exists x y z sh, oa_pos A t light_delay = Ok (x, y, z) /\ prod sh = prod (n :: s) /\
    lists n s ts x sh (fun j t => vx (P j t)) /\ lists n s ts y sh (fun j t => vy (P j t)) /\ lists n s ts z sh (fun j t => vz (P j t)).

(** one number, or one number per planet *)
Definition planet_numbers (n : nat) (a : tens) (v : nat -> R) : Prop :=
  (ash a = Ok [] \/ ash a = Ok [n]) /\ forall i, (i O < n)%nat -> aget a i = Fin (v (i O)).
(** relative flux when planet j of radius rp is at P *)
Definition flux_at (u1 u2 : R) (P : R * R * R) (rp rstar : R) : R :=
  rel_flux u1 u2 (sqrt (vx P * vx P + vy P * vy P) / rstar) (rp / rstar) (vz P / rstar).

(** the weighted mean over the nodes of an exposure *)
Definition node_mean (nodes weights : list R) (f : R -> R) (t e : R) : R :=
  fold_right Rplus 0 (map (fun p => snd p * f (t + e * fst p)) (combine nodes weights)).

(** an N x n array; entry (m, j) is f m j *)
Definition light_table (n N : nat) (X : tens) (f : nat -> nat -> R) : Prop :=
  ash X = Ok [n; N] /\ forall m j, (m < N)%nat -> (j < n)%nat -> aget X (at_tp m j) = Fin (f m j).
(** exposure times: one number, or one per time *)
Definition exposures (N : nat) (e : tens) (es : nat -> R) : Prop :=
  twf e /\ ((ash e = Ok [] /\ forall m, aget e ix0 = Fin (es m)) \/
            (ash e = Ok [N] /\ forall m, (m < N)%nat -> aget e (at_time m) = Fin (es m))).

(** the mean over the exposure *)
Definition exposure_mean (f : R -> R) (t e : R) : R := RInt f (t - e / 2) (t + e / 2) / e.
(** f changes by at most L per unit of time during the exposure *)
Definition lipschitz_during (f : R -> R) (L t e : R) : Prop :=
  forall s s', t - e / 2 <= s <= t + e / 2 -> t - e / 2 <= s' <= t + e / 2 -> Rabs (f s - f s') <= L * Rabs (s - s').
Definition cubic (a0 a1 a2 a3 s : R) : R := a0 + a1 * s + a2 * (s * s) + a3 * (s * s * s).

(** the disk of a planet of radius rp at P overlaps the star's *)
Definition overlaps (P : R * R * R) (rp rstar : R) : Prop :=
  0 < vz P /\ sqrt (vx P * vx P + vy P * vy P) < rstar + rp.
(** in_transit reports every exposure during which some planet overlaps the
    star; it may report more *)
Definition finds_transits (A : orbit_api) (light_delay : bool) (n : nat) (P : nat -> R -> R * R * R) (rst rs : nat -> R)
    (N : nat) (t : tens) (ts : nat -> R) (texp : option tens) (es : nat -> R) : Prop :=
  forall r, planet_values n r rs ->
  exists inds, oa_in_transit A t r texp light_delay = Ok inds /\ (forall m, In m inds -> (m < N)%nat) /\
    forall m j s, (m < N)%nat -> (j < n)%nat -> Rabs (s - ts m) <= es m / 2 -> overlaps (P j s) (rs j) (rst j) -> In m inds.
(** the depth of the transit of a planet of radius ratio ror at impact
    parameter b if the brightness of the star behind it is uniform *)
Definition depth (u1 u2 b ror : R) : R :=
  PI * (ror * ror) * intensity u1 u2 (sqrt (1 - b * b)) / disk_flux u1 u2.
(** optional exposure times *)
Definition opt_exposures (N : nat) (e : option tens) (es : nat -> R) : Prop :=
  match e with None => forall m, es m = 0 | Some e => exposures N e es end.
(** no exposure time, or one for everything *)
Definition one_texp (e : option R) : option tens := option_map scalar e.
