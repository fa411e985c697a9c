(** * Model of src/exoplanet/orbits/simple.py *)
From Coq Require Import Reals List Bool Arith.
From Verif Require Import Num CoreOps Inst M_units M_kepler M_tensor.
Import ListNotations.
Open Scope R_scope.

(** simple.py:24, the constructor's arguments; [None] is an argument left out *)
Record sargs (T : Type) := {
  sa_period : T; sa_duration : T; sa_t0 : option T; sa_b : option T; sa_r_star : option T; sa_ror : option T }.
Arguments sa_period {T}. Arguments sa_duration {T}. Arguments sa_t0 {T}. Arguments sa_b {T}. Arguments sa_r_star {T}. Arguments sa_ror {T}.

(** simple.py:25-36, the attributes *)
Record simple (T : Type) := {
  s_period : T; s_t0 : T; s_b : T; s_duration : T; s_r_star : T;
  s_b_norm : T; s_speed : T; s_half_period : T; s_ref_time : T }.
Arguments s_period {T}. Arguments s_t0 {T}. Arguments s_b {T}. Arguments s_duration {T}. Arguments s_r_star {T}.
Arguments s_b_norm {T}. Arguments s_speed {T}. Arguments s_half_period {T}. Arguments s_ref_time {T}.

Definition dflt {T} (d : T) (a : option T) : T := match a with Some v => v | None => d end.

Section G.
Context {T B : Type} {N : Num T B}.
Local Open Scope num_scope.

(** simple.py:24-36 *)
Definition simple_init (x : sargs T) : simple T :=
  let period := sa_period x in
  let duration := sa_duration x in
  let t0 := dflt (#0) (sa_t0 x) in
  let b := dflt (#0) (sa_b x) in
  let r_star := dflt (#1) (sa_r_star x) in
  let ror := dflt (#0) (sa_ror x) in
  let x2 := r_star ^ 2 * ((#1 + ror) ^ 2 - b ^ 2) in               (* 32 *)
  let half := #0.5 * period in                                     (* 35 *)
  {| s_period := period; s_t0 := t0; s_b := b; s_duration := duration; s_r_star := r_star;
     s_b_norm := b * r_star;                                       (* 31 *)
     s_speed := #2 * nsqrt x2 / duration;                          (* 33 *)
     s_half_period := half; s_ref_time := t0 - half |}.            (* 36 *)

Variable s : simple T.

(** simple.py:38-40; light_delay is ignored *)
Definition simple_star_position (t : T) (light_delay : bool) : T * T * T :=
  let nothing := nzl t in (nothing, nothing, nothing).

(** simple.py:60-61 and 93-94 *)
Definition simple_dt (t : T) : T :=
  nmod (npadr t - s_ref_time s) (s_period s) - s_half_period s.

(** simple.py:45-66.  [m * 1.0 - (~m) * 1.0] is written as a switch between
    1 and -1. *)
Definition simple_relative_position (t : T) (light_delay : bool) : res (T * T * T) :=
  if light_delay then Err NotImpl else
  let dt := simple_dt t in
  let x := nsqz (s_speed s * dt) in
  let y := nsqz (s_b_norm s + nzl dt) in
  let m := nlt (nabs dt) (#0.5 * s_duration s) in
  let z := nsqz (nsw m (#1) (- #1)) in
  Ok (x, y, z).

(** simple.py:42-43; light_delay is not passed on *)
Definition simple_planet_position (t : T) (light_delay : bool) : res (T * T * T) :=
  simple_relative_position t false.

(** simple.py:68-75 *)
Definition simple_planet_velocity (t : T) : res (T * T * T) := Err NotImpl.
Definition simple_star_velocity (t : T) : res (T * T * T) := Err NotImpl.
Definition simple_radial_velocity (t : T) : res T := Err NotImpl.

(** simple.py:93-102 without the reduction over planets *)
Definition simple_mask (t : T) (r texp : option T) : B :=
  let dt := simple_dt t in
  let tol := match r with
             | None => #0.5 * s_duration s                         (* 96 *)
             | Some r => let x := (r + s_r_star s) ^ 2 - s_b_norm s ^ 2 in
                         nsqrt x / s_speed s                       (* 98-99 *)
             end in
  let tol := match texp with None => tol | Some e => tol + #0.5 * e end in   (* 100-101 *)
  nlt (nabs dt) tol.
End G.

(** [t.size] *)
Definition tsize {A} (t : arr A) : res nat := rmap (fold_right Nat.mul 1%nat) (ash t).

(** simple.py:77-103 *)
Definition simple_in_transit {NT : Num tens btens} (s : simple tens) (t : tens) (r texp : option tens) (light_delay : bool) : res (list nat) :=
  if light_delay then Err NotImpl else
  n <- tsize t ;;
  arange_mask n (tany_last (simple_mask s t r texp)).
