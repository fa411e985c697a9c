(** * Model of light curves combined with orbits

    Every light curve class takes every orbit class.  get_light_curve of
    src/exoplanet/light_curves/limb_dark.py (M_limbdark.v), secondary_eclipse.py
    and interpolated.py, called with a KeplerianOrbit, a TTVOrbit, a
    SimpleTransitOrbit or no orbit. *)
From Coq Require Import Reals List Bool Arith ZArith.
From Verif Require Import Num CoreOps Inst CoreFlux M_units M_kepler M_tensor M_simple M_ttv M_limbdark M_secondary M_interpolated.
Import ListNotations.
Open Scope R_scope.

(** orbits/keplerian.py:26, orbits/ttv.py:35, orbits/simple.py:9 *)
Inductive any_orbit :=
  | Keplerian (o : orbit tens)
  | Timed (o : ttvorbit)
  | Simple (s : simple tens).
(** limb_dark.py:27, secondary_eclipse.py:7 and interpolated.py:40; the last one
    wraps another light curve *)
Inductive light_source :=
  | LimbDark (l : limbdark)
  | Secondary (s : secondary)
  | Interpolated (base : light_source) (num_phase : Z) (num_planets : option Z).

(** the attributes t0 (keplerian.py:273-277, simple.py:26), period
    (keplerian.py:136-147, simple.py:25) and r_star (keplerian.py:136-147,
    simple.py:29); TTVOrbit inherits them *)
Definition any_t0 (o : any_orbit) : tens :=
  match o with Keplerian o => o_t0 o | Timed o => o_t0 (tt_orbit o) | Simple s => s_t0 s end.
Definition any_period (o : any_orbit) : tens :=
  match o with Keplerian o => o_period o | Timed o => o_period (tt_orbit o) | Simple s => s_period s end.
Definition any_r_star (o : any_orbit) : tens :=
  match o with Keplerian o => o_r_star o | Timed o => o_r_star (tt_orbit o) | Simple s => s_r_star s end.

Section C.
Variable k : consts.
Variable cp : tens -> tens -> tens -> tens -> tens -> tens -> tens -> tens * tens * tens.

(** get_relative_position and in_transit of the three classes *)
Definition any_api (o : any_orbit) : orbit_api :=
  match o with Keplerian o => kep_api k cp o | Timed o => ttv_api k cp o | Simple s => simple_api s end.
(** keplerian.py:779-804; SimpleTransitOrbit has no such method *)
Definition any_flip (o : any_orbit) (r : tens) : res any_orbit :=
  match o with
  | Keplerian o => o2 <- flip k o r ;; Ok (Keplerian o2)
  | Timed o => o2 <- ttv_flip k o r ;; Ok (Timed o2)
  | Simple _ => Err AttrErr
  end.

(** get_light_curve.  [test_value] is the length of the test value attached to
    orbit.period, if there is one.  Simplified: t = None given to
    InterpolatedLightCurve is reported before problems with t0 and period. *)
Fixpoint light_curve_of (b : light_source) (orb : option any_orbit) (test_value : option nat) (r t texp : option tens)
    (oversample order : Z) (use_in_transit : option bool) (light_delay : bool) : res tens :=
  match b with
  | LimbDark l =>
      get_light_curve l (option_map any_api orb) r t texp oversample order use_in_transit light_delay
  | Secondary s =>                                                 (* secondary_eclipse.py:33-70 *)
      match r, orb with
      | None, _ => Err NotImpl                                     (* 44: as_tensor_variable(None) *)
      | _, None => Err AttrErr                                     (* 45: None has no _flip *)
      | Some r, Some o =>
          o2 <- any_flip o r ;;                                    (* 45 *)
          lc1 <- get_light_curve (se_primary s) (Some (any_api o)) (Some r) t texp
                   oversample order use_in_transit light_delay ;;  (* 46-55 *)
          lc2 <- get_light_curve (se_secondary s) (Some (any_api o2)) (Some (any_r_star o)) t texp
                   oversample order use_in_transit light_delay ;;  (* 56-65 *)
          let kk := (r / any_r_star o)%num in                      (* 67 *)
          let ratio := (se_ratio s * kk ^ 2)%num in                (* 68 *)
          let out := ((lc1 + ratio * lc2) / (nlit 1 + ratio))%num in   (* 70 *)
          _ <- ash out ;; Ok out
      end
  | Interpolated base num_phase num_planets =>                     (* interpolated.py:56-125 *)
      match orb with
      | None => match num_planets with
                | None => Err ValueError                           (* 69-74 *)
                | Some _ => Err AttrErr                            (* 89, 112 *)
                end
      | Some o =>
          _ <- planet_count num_planets test_value ;;              (* 67-76 *)
          match t with
          | None => Err TypeErr                                    (* 93, 118 *)
          | Some t =>
              interpolated_light_curve
                (fun x => light_curve_of base orb test_value r (Some x) texp oversample order use_in_transit light_delay)
                num_phase num_planets test_value (any_t0 o) (any_period o) t
          end
      end
  end.
End C.
