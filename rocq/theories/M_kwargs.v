(** * Keyword-argument binding of KeplerianOrbit, orbits/keplerian.py:75-108

    A call with keyword arguments only; Python guarantees that no keyword is
    repeated, so a lookup returns the only entry.  Passing an astropy unit where
    a number is expected (and vice versa) is modelled as a TypeError. *)
From Coq Require Import Reals List Bool String.
From Verif Require Import Num M_units M_kepler.
Import ListNotations.

Inductive kval (T : Type) := KNone | KNum (q : qty T) | KUnit (u : unit_t).
Arguments KNone {T}.
Arguments KNum {T} q.
Arguments KUnit {T} u.

Fixpoint lookup {A} (n : string) (l : list (string * A)) : option A :=
  match l with
  | [] => None
  | (m, v) :: l => if String.eqb n m then Some v else lookup n l
  end.

Section G.
Context {T B : Type} {N : Num T B}.
Variable k : consts.

Definition kw_qty (d : option (qty T)) (n : string) (l : list (string * kval T)) : res (option (qty T)) :=
  match lookup n l with
  | None => Ok d
  | Some KNone => Ok None
  | Some (KNum q) => Ok (Some q)
  | Some (KUnit _) => Err TypeErr
  end.
Definition kw_num (n : string) l : res (option T) := rmap (option_map (@qv T)) (kw_qty None n l).
Definition kw_unit (n : string) (l : list (string * kval T)) : res (option unit_t) :=
  match lookup n l with
  | None => Ok None
  | Some (KUnit u) => Ok (Some u)
  | Some _ => Err TypeErr
  end.

(** keplerian.py:75-96 (signature and defaults) and 98-108 (the only two names
    read out of ** kwargs); every other entry of ** kwargs is never read.  The
    model keyword only affects citations (M_cite.v). *)
Definition bind_kwargs (l : list (string * kval T)) : res (kargs T) :=
  period <- kw_qty None "period" l ;; a <- kw_qty None "a" l ;;
  t0 <- kw_num "t0" l ;; tper <- kw_num "t_periastron" l ;;
  incl <- kw_num "incl" l ;; b <- kw_num "b" l ;; duration <- kw_qty None "duration" l ;;
  ecc <- kw_num "ecc" l ;; omega <- kw_num "omega" l ;;
  sin_omega <- kw_num "sin_omega" l ;; cos_omega <- kw_num "cos_omega" l ;;
  Omega <- kw_num "Omega" l ;;
  m_planet <- kw_qty (Some (plain (nlit 0))) "m_planet" l ;;
  m_star <- kw_qty None "m_star" l ;; r_star <- kw_qty None "r_star" l ;;
  rho_star <- kw_qty None "rho_star" l ;; ror <- kw_num "ror" l ;;
  mpu <- kw_unit "m_planet_units" l ;; rsu <- kw_unit "rho_star_units" l ;;
  Ok {| ka_period := period; ka_a := a; ka_t0 := t0; ka_tper := tper; ka_incl := incl;
        ka_b := b; ka_duration := duration; ka_ecc := ecc; ka_omega := omega;
        ka_sin_omega := sin_omega; ka_cos_omega := cos_omega; ka_Omega := Omega;
        ka_m_planet := m_planet; ka_m_star := m_star; ka_r_star := r_star;
        ka_rho_star := rho_star; ka_ror := ror; ka_m_planet_units := mpu;
        ka_rho_star_units := rsu |}.

(** KeplerianOrbit( **l ) *)
Definition kep_call (l : list (string * kval T)) : res (orbit T) :=
  x <- bind_kwargs l ;; kep_init k x.
End G.
