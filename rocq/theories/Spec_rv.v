(** * Specification vocabulary for the radial-velocity estimators *)
From Coq Require Import Reals List Bool Arith ZArith.
From Verif Require Import Num Inst M_units M_kepler Spec_orbit.
Import ListNotations.
Open Scope R_scope.

(** the numbers [l] are the argument's values in the unit [u]; plain numbers are
    in that unit already *)
Definition measures (q : qty (list R)) (u : unit_t) (l : list R) : Prop :=
  match qu q with
  | None => qv q = l
  | Some v => udim v = udim u /\ 0 < uscale v /\ map (fun z => z * uscale v) (qv q) = map (fun z => z * uscale u) l
  end.
Definition opt_measures (q : option (qty (list R))) (u : unit_t) (l : option (list R)) : Prop :=
  match q, l with None, None => True | Some q, Some l => measures q u l | _, _ => False end.

Fixpoint total (l : list R) : R := match l with [] => 0 | x :: l => x + total l end.
(** a planet on a circular orbit: the star recedes before the transit at [t0] *)
Definition transit_signal (p t0 K t : R) : R := - K * sin (2 * PI * (t - t0) / p).
Fixpoint transit_model (periods t0s Ks : list R) (c t : R) : R :=
  match periods, t0s, Ks with
  | p :: periods, t0 :: t0s, K :: Ks => transit_signal p t0 K t + transit_model periods t0s Ks c t
  | _, _, _ => c
  end.
(** a sinusoid of any phase for every period *)
Fixpoint phase_model (periods As Bs : list R) (c t : R) : R :=
  match periods, As, Bs with
  | p :: periods, A :: As, B :: Bs => A * sin (2 * PI * t / p) + B * cos (2 * PI * t / p) + phase_model periods As Bs c t
  | _, _, _ => c
  end.
(** the observation times tell the parameters of the model apart *)
Definition transit_identifiable (periods t0s x : list R) : Prop :=
  forall Ks c, length Ks = length periods -> (forall t, In t x -> transit_model periods t0s Ks c t = 0) ->
    c = 0 /\ forall K, In K Ks -> K = 0.
Definition phase_identifiable (periods x : list R) : Prop :=
  forall As Bs c, length As = length periods -> length Bs = length periods ->
    (forall t, In t x -> phase_model periods As Bs c t = 0) ->
    c = 0 /\ (forall A, In A As -> A = 0) /\ forall B, In B Bs -> B = 0.

(** one uncertainty per observation: ones if not given, one for all, or one each *)
Definition uncertainties (n : nat) (yerr : option (list R)) (sigma : list R) : Prop :=
  match yerr with
  | None => sigma = repeat 1 n
  | Some e => List.Forall (fun s => s <> 0) e /\ (sigma = e /\ length e = n \/ exists s, e = [s] /\ sigma = repeat s n)
  end.
(** the weighted sum of squared residuals of the model [f] *)
Fixpoint chi2 (f : R -> R) (x y sigma : list R) : R :=
  match x, y, sigma with
  | t :: x, v :: y, s :: sigma => ((v - f t) / s) ^ 2 + chi2 f x y sigma
  | _, _, _ => 0
  end.

(** the radial velocity of a list of orbits, each with its semi-amplitude *)
Fixpoint orbits_rv (k : consts) (os : list (orbit R)) (Ks : list R) (t : R) : res R :=
  match os, Ks with
  | o :: os, K :: Ks =>
      v <- get_radial_velocity k o (kep_warp o) t (Some K) None ;; r <- orbits_rv k os Ks t ;; Ok (v + r)
  | _, _ => Ok 0
  end.
(** the same with amplitude and phase *)
Fixpoint harmonic_model (periods Ks phis : list R) (c t : R) : R :=
  match periods, Ks, phis with
  | p :: periods, K :: Ks, phi :: phis => K * cos (2 * PI * t / p + phi) + harmonic_model periods Ks phis c t
  | _, _, _ => c
  end.
Definition amplitude_list (As Bs : list R) : list R := map (fun ab => sqrt (fst ab ^ 2 + snd ab ^ 2)) (combine As Bs).
(** the arguments of the estimator in days and m/s: times and data of the same
    length; a Quantity of velocities needs uncertainties (see C60) *)
Record rv_data (k : consts) (x y : qty (list R)) (yerr : option (qty (list R))) (ts vs sigma : list R) : Prop := {
  rv_x : measures x (u_day k) ts;
  rv_y : measures y (u_mps k) vs;
  rv_len : length vs = length ts;
  rv_unit : yerr = None -> qu y = None;
  rv_err : exists e, opt_measures yerr (u_mps k) e /\ uncertainties (length ts) e sigma
}.
(** a unit of the wrong kind *)
Definition incompatible (q : qty (list R)) (u : unit_t) : Prop := exists v, qu q = Some v /\ udim v <> udim u.
(** a stellar mass in solar masses *)
Definition solar_masses (k : consts) (q : qty R) (m : R) : Prop :=
  match qu q with
  | None => qv q = m
  | Some v => udim v = udim (u_M_sun k) /\ qv q * uscale v = m * s_M_sun k
  end.
(** a circular orbit built by the library *)
Definition circular_orbit (k : consts) (o : orbit R) : Prop :=
  (exists a, kep_init k a = Ok o) /\ physical o /\ o_ecc o = None.
(** the radial velocities, in m/s, that a list of orbits with planet masses predicts *)
Fixpoint masses_rv (k : consts) (os : list (orbit R)) (t : R) : res R :=
  match os with
  | o :: os => v <- get_radial_velocity k o (kep_warp o) t None None ;; r <- masses_rv k os t ;; Ok (v + r)
  | _ => Ok 0
  end.
(** semi-amplitude, in m/s, of a one solar mass companion on a circular edge-on
    orbit of [p] days around [m] solar masses in total: (2 pi G / p)^(1/3) / m^(2/3) *)
Definition solar_K (k : consts) (p m : R) : R :=
  s_R_sun k / s_day k / s_mps k * Rpower (2 * PI * G_grav k / p) (1 / 3) / Rpower m (2 / 3).
(** a times the first plus b times the second list *)
Definition lincomb (a b : R) (u v : list R) : list R := map (fun z => a * fst z + b * snd z) (combine u v).
