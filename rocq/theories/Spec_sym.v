(** * Specification vocabulary for the symmetries of orbits and light curves *)
From Coq Require Import Reals List Bool Arith ZArith.
From Verif Require Import Num CoreOps Inst M_units M_kepler M_fin M_tensor Spec_orbit Spec_params Spec_array Spec_light.
Import ListNotations.
Open Scope R_scope.

(** the longitude of the ascending node replaced *)
Definition set_Omega {T} (x : kargs T) (w : option T) : kargs T :=
  {| ka_period := ka_period x; ka_a := ka_a x; ka_t0 := ka_t0 x; ka_tper := ka_tper x;
     ka_incl := ka_incl x; ka_b := ka_b x; ka_duration := ka_duration x;
     ka_ecc := ka_ecc x; ka_omega := ka_omega x; ka_sin_omega := ka_sin_omega x;
     ka_cos_omega := ka_cos_omega x; ka_Omega := w; ka_m_planet := ka_m_planet x;
     ka_m_star := ka_m_star x; ka_r_star := ka_r_star x; ka_rho_star := ka_rho_star x;
     ka_ror := ka_ror x; ka_m_planet_units := ka_m_planet_units x;
     ka_rho_star_units := ka_rho_star_units x |}.
(** rotation of the sky plane by the angle w *)
Definition turn (w : R) (v : R * R * R) : R * R * R :=
  (cos w * vx v - sin w * vy v, sin w * vx v + cos w * vy v, vz v).

(** two light curves of n planets at N times with the same entries, or the same
    error *)
Definition same_light (n N : nat) (X X' : res tens) : Prop :=
  match X, X' with
  | Ok X, Ok X' => exists f, light_table n N X f /\ light_table n N X' f
  | Err e, Err e' => e = e'
  | _, _ => False
  end.

(** the same system with every time d later *)
Definition later (x : kargs R) (d : R) : kargs R :=
  match ka_t0 x, ka_tper x with
  | None, None => set_times x (Some d) None
  | t0, tp => set_times x (option_map (fun v => v + d) t0) (option_map (fun v => v + d) tp)
  end.
(** the arrays x' hold the arguments of the planets xs' *)
Definition batch (n : nat) (x' : kargs tens) (xs' : nat -> kargs R) : Prop :=
  planet_args n x' /\ forall j, (j < n)%nat -> args_at (at_planet j) x' = fin_args (xs' j).

(** the same system seen from below the plane of the sky reflected: an impact
    parameter -b or an inclination of 180 degrees minus i.  Where neither is
    given the orbit is edge on and its own mirror image. *)
Definition mirror (x : kargs R) : kargs R :=
  set_incl x (option_map Ropp (ka_b x)) (option_map (fun i => PI - i) (ka_incl x)).
(** reflection of the sky at the line through the origin at the angle w *)
Definition across (w : R) (v : R * R * R) : R * R * R :=
  (cos (2 * w) * vx v + sin (2 * w) * vy v, sin (2 * w) * vx v - cos (2 * w) * vy v, vz v).
(** the angle of the line of nodes *)
Definition node_angle (x : kargs R) : R := match ka_Omega x with None => 0 | Some w => w end.
(** the solver of the contact points only depends on the size of the cosine of
    the inclination *)
Definition even_solver (cp : fl -> fl -> fl -> fl -> fl -> fl -> fl -> fl * fl * fl) : Prop :=
  forall a e cw sw c si L, cp a e cw sw (Fin (- c)) si L = cp a e cw sw (Fin c) si L.

(** the same system with every length s times as large and every mass s^3 times
    as large: densities, times and angles stay *)
Definition larger (s : R) (q : option (qty R)) : option (qty R) := option_map (fun q => Q (qv q * s) (qu q)) q.
Definition scaled (s : R) (x : kargs R) : kargs R :=
  {| ka_period := ka_period x; ka_a := larger s (ka_a x); ka_t0 := ka_t0 x; ka_tper := ka_tper x;
     ka_incl := ka_incl x; ka_b := ka_b x; ka_duration := ka_duration x;
     ka_ecc := ka_ecc x; ka_omega := ka_omega x; ka_sin_omega := ka_sin_omega x;
     ka_cos_omega := ka_cos_omega x; ka_Omega := ka_Omega x; ka_m_planet := larger (s ^ 3) (ka_m_planet x);
     ka_m_star := larger (s ^ 3) (ka_m_star x); ka_r_star := larger s (ka_r_star x); ka_rho_star := ka_rho_star x;
     ka_ror := ka_ror x; ka_m_planet_units := ka_m_planet_units x;
     ka_rho_star_units := ka_rho_star_units x |}.
Definition times (s : R) (v : R * R * R) : R * R * R := (s * vx v, s * vy v, s * vz v).
(** the solver of the contact points only depends on the ratio of its two
    lengths *)
Definition scale_free_solver (s : R) (cp : fl -> fl -> fl -> fl -> fl -> fl -> fl -> fl * fl * fl) : Prop :=
  forall a e cw sw c si L, cp (Fin (a * s)) e cw sw c si (Fin (L * s)) = cp (Fin a) e cw sw c si (Fin L).
(** the arguments say how large the star is: without a radius or a mass, or
    with a duration and no radius, the library would use one solar radius *)
Definition sized (x : kargs R) : Prop := ka_r_star x <> None \/ (ka_m_star x <> None /\ ka_duration x = None).
