(** * Specification vocabulary for orbits (independent of the model's helpers;
    only observable attributes of an orbit object are mentioned) *)
From Coq Require Import Reals.
From Coquelicot Require Import Coquelicot.
From Verif Require Import Num Inst M_units M_kepler.
Open Scope R_scope.

(** An orbit whose attributes have physical values. *)
Record physical (o : orbit R) : Prop := {
  ph_a : 0 < o_a o;
  ph_period : 0 < o_period o;
  ph_r_star : 0 < o_r_star o;
  ph_m_star : 0 <= o_m_star o;
  ph_m_planet : 0 <= o_m_planet o;
  ph_m_total : 0 < o_m_star o + o_m_planet o;
  ph_cosi : -1 <= o_cos_incl o <= 1;
  ph_ecc : forall d, o_ecc o = Some d -> 0 <= e_ecc d < 1;
  ph_omega : forall d, o_ecc o = Some d -> e_cosw d * e_cosw d + e_sinw d * e_sinw d = 1
}.

(** eccentricity and orientation of periastron of an orbit; a circular orbit
    has e = 0 and, by the library's convention, omega = 0 *)
Definition ecc_of (o : orbit R) : R :=
  match o_ecc o with None => 0 | Some d => e_ecc d end.
Definition cosw_of (o : orbit R) : R :=
  match o_ecc o with None => 1 | Some d => e_cosw d end.
Definition sinw_of (o : orbit R) : R :=
  match o_ecc o with None => 0 | Some d => e_sinw d end.

(** vectors *)
Definition vx (v : R * R * R) : R := fst (fst v).
Definition vy (v : R * R * R) : R := snd (fst v).
Definition vz (v : R * R * R) : R := snd v.
Definition vadd (u v : R * R * R) := (vx u + vx v, vy u + vy v, vz u + vz v).
Definition vsub (u v : R * R * R) := (vx u - vx v, vy u - vy v, vz u - vz v).
Definition vscale (c : R) (v : R * R * R) := (c * vx v, c * vy v, c * vz v).
Definition dot (u v : R * R * R) : R := vx u * vx v + vy u * vy v + vz u * vz v.
Definition norm (v : R * R * R) : R := sqrt (dot v v).
Definition cross (u v : R * R * R) : R * R * R :=
  (vy u * vz v - vz u * vy v, vz u * vx v - vx u * vz v, vx u * vy v - vy u * vx v).

(** two orbits with the same motion at all times *)
Definition same_motion (k : consts) (o o' : orbit R) : Prop :=
  forall t,
  (forall par, get_planet_position k o (kep_warp o) t par false = get_planet_position k o' (kep_warp o') t par false) /\
  (forall par, get_star_position k o (kep_warp o) t par false = get_star_position k o' (kep_warp o') t par false) /\
  (forall par, get_relative_position k o (kep_warp o) t par false = get_relative_position k o' (kep_warp o') t par false) /\
  get_planet_velocity o (kep_warp o) t = get_planet_velocity o' (kep_warp o') t /\
  get_star_velocity o (kep_warp o) t = get_star_velocity o' (kep_warp o') t /\
  get_relative_velocity o (kep_warp o) t = get_relative_velocity o' (kep_warp o') t /\
  (0 < o_m_star o -> get_planet_acceleration o (kep_warp o) t = get_planet_acceleration o' (kep_warp o') t) /\
  (0 < o_m_planet o -> get_star_acceleration o (kep_warp o) t = get_star_acceleration o' (kep_warp o') t) /\
  get_relative_acceleration o (kep_warp o) t = get_relative_acceleration o' (kep_warp o') t /\
  (forall u, get_radial_velocity k o (kep_warp o) t None u = get_radial_velocity k o' (kep_warp o') t None u).


(** componentwise derivative of a vector function *)
Definition vderive (f : R -> R * R * R) (t : R) (d : R * R * R) : Prop :=
  is_derive (fun u => vx (f u)) t (vx d) /\
  is_derive (fun u => vy (f u)) t (vy d) /\
  is_derive (fun u => vz (f u)) t (vz d).


(** the three kinds of position/velocity/acceleration methods *)
Inductive body := Planet | Star | Relative.
Definition pos {T B} {N : Num T B} (k : consts) (o : orbit T) (b : body) (t : T) (par : option T) (light_delay : bool) : T * T * T :=
  match b with
  | Planet => get_planet_position k o (kep_warp o) t par light_delay
  | Star => get_star_position k o (kep_warp o) t par light_delay
  | Relative => get_relative_position k o (kep_warp o) t par light_delay
  end.
Definition vel {T B} {N : Num T B} (o : orbit T) (b : body) (t : T) : T * T * T :=
  match b with
  | Planet => get_planet_velocity o (kep_warp o) t
  | Star => get_star_velocity o (kep_warp o) t
  | Relative => get_relative_velocity o (kep_warp o) t
  end.
Definition acc {T B} {N : Num T B} (o : orbit T) (b : body) (t : T) : T * T * T :=
  match b with
  | Planet => get_planet_acceleration o (kep_warp o) t
  | Star => get_star_acceleration o (kep_warp o) t
  | Relative => get_relative_acceleration o (kep_warp o) t
  end.
(** the body moves at all: a body whose companion is massless stays at the origin *)
Definition moving (o : orbit R) (b : body) : Prop :=
  match b with Planet => 0 < o_m_star o | Star => 0 < o_m_planet o | Relative => True end.
