(** * Specification vocabulary for TTVOrbit *)
From Coq Require Import Reals List Bool Arith ZArith Sorted String.
From Verif Require Import Num CoreOps Inst M_units M_kepler M_kwargs M_fin M_tensor M_ttv Spec_orbit Spec_params Spec_array.
Import ListNotations.
Open Scope R_scope.

(** sum of squared residuals of the line a + b x over transits numbered inds *)
Fixpoint sse (inds : list Z) (times : list R) (a b : R) : R :=
  match inds, times with
  | i :: inds, y :: times => (y - (a + b * IZR i)) * (y - (a + b * IZR i)) + sse inds times a b
  | _, _ => 0
  end.
Definition rsum (l : list R) : R := fold_right Rplus 0 l.
(** residuals of the line *)
Fixpoint residuals (inds : list Z) (times : list R) (a b : R) : list R :=
  match inds, times with
  | i :: inds, y :: times => (y - (a + b * IZR i)) :: residuals inds times a b
  | _, _ => []
  end.
Fixpoint rdot (inds : list Z) (l : list R) : R :=
  match inds, l with
  | i :: inds, y :: l => IZR i * y + rdot inds l
  | _, _ => 0
  end.

(** v is the entry of l closest to t, the smaller one of two equally close ones *)
Definition nearest (l : list R) (t v : R) : Prop :=
  In v l /\ forall u, In u l -> Rabs (t - v) <= Rabs (t - u) /\ (Rabs (t - v) = Rabs (t - u) -> v <= u).

(** planet j of a vector with one entry per planet *)
Definition entry (a : tens) (j : nat) : fl := aget a (at_planet j).

(** positions and velocities of a TTVOrbit *)
Definition tpos (k : consts) (o : ttvorbit) (b : body) (t : tens) (par : option tens) (light_delay : bool) : tens * tens * tens :=
  match b with
  | Planet => get_planet_position k (tt_orbit o) (ttv_warp o) t par light_delay
  | Star => get_star_position k (tt_orbit o) (ttv_warp o) t par light_delay
  | Relative => get_relative_position k (tt_orbit o) (ttv_warp o) t par light_delay
  end.
Definition tvel (o : ttvorbit) (b : body) (t : tens) : tens * tens * tens :=
  match b with
  | Planet => get_planet_velocity (tt_orbit o) (ttv_warp o) t
  | Star => get_star_velocity (tt_orbit o) (ttv_warp o) t
  | Relative => get_relative_velocity (tt_orbit o) (ttv_warp o) t
  end.

(** o is a TTVOrbit of n planets with the underlying Keplerian orbits os;
    planet j has the transits tts j, in increasing order *)
Record ttv_system (k : consts) (n : nat) (o : ttvorbit) (os : nat -> orbit R) (tts : nat -> list R) : Prop := {
  tv_made : exists x, ttv_init k x = Ok o;
  tv_under : exists x xs, kep_init k x = Ok (tt_orbit o) /\ system k n x xs os;
  tv_all : tt_all o = map (fun j => map Fin (tts j)) (seq 0 n);
  tv_inc : forall j, (j < n)%nat -> StronglySorted Rlt (tts j);
  tv_period : exists P, planet_values n (tt_period o) P /\ forall j, (j < n)%nat -> 0 < P j }.

(** TTVOrbit(ttvs, transit_times, transit_inds, kw) *)
Definition targs_of ttvs times inds kw : targs := {| ta_ttvs := ttvs; ta_times := times; ta_inds := inds; ta_kw := kw |}.
(** TTVOrbit(period, t0, ttvs, transit_inds, kw) *)
Definition from_ttvs (ttvs : list (list fl)) (inds : list (list Z)) (period t0 : tens) (kw : list (string * kval tens)) : targs :=
  {| ta_ttvs := Some ttvs; ta_times := None; ta_inds := Some inds;
     ta_kw := ("period"%string, KNum (plain period)) :: ("t0"%string, KNum (plain t0)) :: kw |}.
(** the transit numbers of planet i: given, or 0, 1, 2, ... *)
Definition given_labels (x : targs) (i : nat) (times : list fl) : option (list Z) :=
  match ta_inds x with None => Some (zarange (Z.of_nat (List.length times))) | Some l => nth_error l i end.

(** near j t is the transit of planet j closest to t *)
Definition nearest_transits (n : nat) (tts : nat -> list R) (near : nat -> R -> R) : Prop :=
  forall j t, (j < n)%nat -> nearest (tts j) t (near j t).
(** the time of the underlying orbit that corresponds to time t *)
Definition orbit_time (os : nat -> orbit R) (near : nat -> R -> R) (j : nat) (t : R) : R :=
  o_t0 (os j) + (t - near j t).
(** u and v are neighbours in the list *)
Definition consecutive (l : list R) (u v : R) : Prop :=
  exists i, nth_error l i = Some u /\ nth_error l (S i) = Some v.
