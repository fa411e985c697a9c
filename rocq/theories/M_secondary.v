(** * Model of src/exoplanet/light_curves/secondary_eclipse.py *)
From Coq Require Import Reals List Bool Arith ZArith.
From Verif Require Import Num CoreOps Inst CoreFlux M_units M_kepler M_tensor M_simple M_ttv M_limbdark.
Import ListNotations.
Open Scope R_scope.

(** secondary_eclipse.py:23-31, the attributes *)
Record secondary := { se_primary : limbdark; se_secondary : limbdark; se_ratio : tens }.
(** [u[0]] and [u[1]] of a vector *)
Definition first_two (u : tens) : res (fl * fl) :=
  match ash u with
  | Ok [d] => if Nat.ltb d 2 then Err IndexErr else Ok (aget u (cons_ix 0%nat ix0), aget u (cons_ix 1%nat ix0))
  | Ok _ => Err IndexErr
  | Err e => Err e
  end.
(** secondary_eclipse.py:20-31.  Simplified: the limb darkening coefficients are
    vectors. *)
Definition secondary_init (u_primary u_secondary ratio : tens) : res secondary :=
  p <- first_two u_primary ;;
  s <- first_two u_secondary ;;
  Ok {| se_primary := ld_init (fst p) (snd p); se_secondary := ld_init (fst s) (snd s); se_ratio := ratio |}.

(** secondary_eclipse.py:33-70, for a KeplerianOrbit.  An error inside a tensor
    shape is an error of the call. *)
Definition secondary_light_curve (k : consts)
    (cp : tens -> tens -> tens -> tens -> tens -> tens -> tens -> tens * tens * tens)
    (S : secondary) (o : orbit tens) (r : tens) (t texp : option tens) (oversample order : Z)
    (use_in_transit : option bool) (light_delay : bool) : res tens :=
  o2 <- flip k o r ;;                                              (* 45 *)
  lc1 <- get_light_curve (se_primary S) (Some (kep_api k cp o)) (Some r) t texp
           oversample order use_in_transit light_delay ;;          (* 46-55 *)
  lc2 <- get_light_curve (se_secondary S) (Some (kep_api k cp o2)) (Some (o_r_star o)) t texp
           oversample order use_in_transit light_delay ;;          (* 56-65 *)
  let kk := (r / o_r_star o)%num in                                (* 67 *)
  let ratio := (se_ratio S * kk ^ 2)%num in                        (* 68 *)
  let out := ((lc1 + ratio * lc2) / (nlit 1 + ratio))%num in       (* 70 *)
  _ <- ash out ;; Ok out.
