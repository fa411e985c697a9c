(** * Specification vocabulary for constructor arguments *)
From Coq Require Import Reals Bool List String.
From Verif Require Import Num Inst M_units M_kepler.
Import ListNotations.
Open Scope R_scope.

(** Was the argument supplied? *)
Definition given {A} (x : option A) : bool := match x with Some _ => true | None => false end.

(** C01: the accepted combinations of (a, period; rho_star, r_star, m_star) *)
Definition legal (a period rho r m : bool) : bool :=
  match a, period with
  | false, false => false
  | true, true => negb rho && negb m
  | _, _ =>
      match rho, r, m with
      | false, false, false => true      (* nothing: the Sun *)
      | true, false, false => true       (* density only: one solar radius *)
      | true, true, false => true        (* exactly two *)
      | true, false, true => true
      | false, true, true => true
      | _, _, _ => false
      end
  end.

(** Neither the value of the argument nor its unit is bad. *)
Definition arg_pos (k : consts) (u : unit_t) (x : option (qty R)) : Prop :=
  match x with None => True | Some q => exists v, to_unit q u = Ok v /\ 0 < v end.
Definition arg_nonneg (k : consts) (u : unit_t) (x : option (qty R)) : Prop :=
  match x with None => True | Some q => exists v, to_unit q u = Ok v /\ 0 <= v end.

Record positive_args (k : consts) (x : kargs R) : Prop := {
  pa_a : arg_pos k (u_R_sun k) (ka_a x);
  pa_period : arg_pos k (u_day k) (ka_period x);
  pa_r : arg_pos k (u_R_sun k) (ka_r_star x);
  pa_m : arg_pos k (u_M_sun k) (ka_m_star x);
  pa_rho : arg_pos k (u_gcc k) (ka_rho_star x);
  pa_mp : arg_nonneg k (u_M_sun k) (ka_m_planet x)
}.

(** The two deprecated unit keywords are not used. *)
Definition no_unit_kw (x : kargs R) : Prop :=
  ka_m_planet_units x = None /\ ka_rho_star_units x = None.

(** A transit duration does not determine the semi-major axis. *)
Definition no_duration_a (x : kargs R) : Prop :=
  ka_duration x = None \/ ka_ecc x <> None.

(** The remaining arguments of the constructor are consistent: an eccentric
    orbit has its orientation given exactly one way, not both of t0 and
    t_periastron, not both of b and incl, no duration, no deprecated keyword. *)
Record others_ok {T} (x : kargs T) : Prop := {
  oo_dur : ka_duration x = None;
  oo_omega : ka_ecc x = None \/
     (given (ka_omega x) = true /\ given (ka_sin_omega x) && given (ka_cos_omega x) = false) \/
     (given (ka_omega x) = false /\ given (ka_sin_omega x) && given (ka_cos_omega x) = true);
  oo_t : given (ka_t0 x) && given (ka_tper x) = false;
  oo_b : given (ka_b x) && given (ka_incl x) = false;
  oo_u1 : ka_m_planet_units x = None;
  oo_u2 : ka_rho_star_units x = None
}.

(** Every quantity can be converted to the library's unit (always true for
    plain numbers). *)
Definition convertible {T B} {N : Num T B} (q : option (qty T)) (u : unit_t) : Prop :=
  match q with None => True | Some q => exists v, to_unit q u = Ok v end.
Record units_ok {T B} {N : Num T B} (k : consts) (x : kargs T) : Prop := {
  uo_a : convertible (ka_a x) (u_R_sun k);
  uo_period : convertible (ka_period x) (u_day k);
  uo_r : convertible (ka_r_star x) (u_R_sun k);
  uo_m : convertible (ka_m_star x) (u_M_sun k);
  uo_rho : convertible (ka_rho_star x) (u_gcc k);
  uo_mp : convertible (ka_m_planet x) (u_M_sun k)
}.
Definition legal_args {T} (x : kargs T) : bool :=
  legal (given (ka_a x)) (given (ka_period x)) (given (ka_rho_star x))
        (given (ka_r_star x)) (given (ka_m_star x)).

(** C02: the attributes keep what was supplied (converted to R_sun, M_sun, day,
    g/cm^3) and default to the Sun *)
Record kept_params (k : consts) (x : kargs R) (o : orbit R) : Prop := {
  kp_a : forall q, ka_a x = Some q -> to_unit q (u_R_sun k) = Ok (o_a o);
  kp_period : forall q, ka_period x = Some q -> to_unit q (u_day k) = Ok (o_period o);
  kp_r : forall q, ka_r_star x = Some q -> to_unit q (u_R_sun k) = Ok (o_r_star o);
  kp_m : forall q, ka_m_star x = Some q -> to_unit q (u_M_sun k) = Ok (o_m_star o);
  kp_rho : forall q, ka_rho_star x = Some q -> to_unit q (u_gcc k) = Ok (o_rho_star o);
  kp_mp : match ka_m_planet x with
          | Some q => to_unit q (u_M_sun k) = Ok (o_m_planet o)
          | None => o_m_planet o = 0
          end;
  kp_r1 : ka_r_star x = None -> ka_m_star x = None -> o_r_star o = 1;
  kp_m1 : given (ka_a x) && given (ka_period x) = false -> ka_rho_star x = None ->
          ka_r_star x = None -> ka_m_star x = None -> o_m_star o = 1;
  kp_pos : 0 < o_a o /\ 0 < o_period o /\ 0 < o_r_star o /\ 0 <= o_m_planet o /\
           0 < o_m_star o + o_m_planet o;
  kp_mpos : given (ka_a x) && given (ka_period x) = false -> 0 < o_m_star o
}.

(** C03: a selection of attributes that determines the star and the orbit *)
Definition pins (ua up urho ur um : bool) : bool :=
  match ua, up with
  | true, true => ur && negb urho && negb um
  | false, false => false
  | _, _ => (urho && ur && negb um) || (urho && negb ur && um) || (negb urho && ur && um)
  end.
Definition sel (b : bool) (v : R) : option (qty R) := if b then Some (plain v) else None.
(** the arguments of x with the sizes and masses replaced by the selected
    attributes of o *)
Definition reargs (x : kargs R) (o : orbit R) (ua up urho ur um : bool) : kargs R :=
  {| ka_period := sel up (o_period o); ka_a := sel ua (o_a o);
     ka_t0 := ka_t0 x; ka_tper := ka_tper x; ka_incl := ka_incl x; ka_b := ka_b x;
     ka_duration := ka_duration x; ka_ecc := ka_ecc x; ka_omega := ka_omega x;
     ka_sin_omega := ka_sin_omega x; ka_cos_omega := ka_cos_omega x; ka_Omega := ka_Omega x;
     ka_m_planet := Some (plain (o_m_planet o)); ka_m_star := sel um (o_m_star o);
     ka_r_star := sel ur (o_r_star o); ka_rho_star := sel urho (o_rho_star o);
     ka_ror := ka_ror x; ka_m_planet_units := None; ka_rho_star_units := None |}.

(** C04: replace a tagged quantity by the plain number in the library's unit *)
Definition conv_arg {T B} {N : Num T B} (q : option (qty T)) (u : unit_t) : res (option (qty T)) :=
  match q with None => Ok None | Some q => rmap (fun v => Some (plain v)) (to_unit q u) end.
Definition set_sizes {T} (x : kargs T) (p a mp ms rs rho dur : option (qty T)) : kargs T :=
  {| ka_period := p; ka_a := a;
     ka_t0 := ka_t0 x; ka_tper := ka_tper x; ka_incl := ka_incl x; ka_b := ka_b x;
     ka_duration := dur; ka_ecc := ka_ecc x; ka_omega := ka_omega x;
     ka_sin_omega := ka_sin_omega x; ka_cos_omega := ka_cos_omega x; ka_Omega := ka_Omega x;
     ka_m_planet := mp; ka_m_star := ms; ka_r_star := rs; ka_rho_star := rho;
     ka_ror := ka_ror x; ka_m_planet_units := None; ka_rho_star_units := None |}.
Definition preconverted {T B} {N : Num T B} (k : consts) (x : kargs T) : res (kargs T) :=
  p <- conv_arg (ka_period x) (u_day k) ;;
  a <- conv_arg (ka_a x) (u_R_sun k) ;;
  mp <- conv_arg (ka_m_planet x) (u_M_sun k) ;;
  ms <- conv_arg (ka_m_star x) (u_M_sun k) ;;
  rs <- conv_arg (ka_r_star x) (u_R_sun k) ;;
  rho <- conv_arg (ka_rho_star x) (u_gcc k) ;;
  dur <- conv_arg (ka_duration x) (u_day k) ;;
  Ok (set_sizes x p a mp ms rs rho dur).

(** single-argument updates *)
Definition set_times {T} (x : kargs T) (t0 tper : option T) : kargs T :=
  {| ka_period := ka_period x; ka_a := ka_a x; ka_t0 := t0; ka_tper := tper;
     ka_incl := ka_incl x; ka_b := ka_b x; ka_duration := ka_duration x;
     ka_ecc := ka_ecc x; ka_omega := ka_omega x; ka_sin_omega := ka_sin_omega x;
     ka_cos_omega := ka_cos_omega x; ka_Omega := ka_Omega x; ka_m_planet := ka_m_planet x;
     ka_m_star := ka_m_star x; ka_r_star := ka_r_star x; ka_rho_star := ka_rho_star x;
     ka_ror := ka_ror x; ka_m_planet_units := ka_m_planet_units x;
     ka_rho_star_units := ka_rho_star_units x |}.
Definition set_incl {T} (x : kargs T) (b incl : option T) : kargs T :=
  {| ka_period := ka_period x; ka_a := ka_a x; ka_t0 := ka_t0 x; ka_tper := ka_tper x;
     ka_incl := incl; ka_b := b; ka_duration := ka_duration x;
     ka_ecc := ka_ecc x; ka_omega := ka_omega x; ka_sin_omega := ka_sin_omega x;
     ka_cos_omega := ka_cos_omega x; ka_Omega := ka_Omega x; ka_m_planet := ka_m_planet x;
     ka_m_star := ka_m_star x; ka_r_star := ka_r_star x; ka_rho_star := ka_rho_star x;
     ka_ror := ka_ror x; ka_m_planet_units := ka_m_planet_units x;
     ka_rho_star_units := ka_rho_star_units x |}.
Definition set_a {T} (x : kargs T) (a : option (qty T)) : kargs T :=
  {| ka_period := ka_period x; ka_a := a; ka_t0 := ka_t0 x; ka_tper := ka_tper x;
     ka_incl := ka_incl x; ka_b := ka_b x; ka_duration := ka_duration x;
     ka_ecc := ka_ecc x; ka_omega := ka_omega x; ka_sin_omega := ka_sin_omega x;
     ka_cos_omega := ka_cos_omega x; ka_Omega := ka_Omega x; ka_m_planet := ka_m_planet x;
     ka_m_star := ka_m_star x; ka_r_star := ka_r_star x; ka_rho_star := ka_rho_star x;
     ka_ror := ka_ror x; ka_m_planet_units := ka_m_planet_units x;
     ka_rho_star_units := ka_rho_star_units x |}.
Definition set_duration {T} (x : kargs T) (d : option (qty T)) : kargs T :=
  {| ka_period := ka_period x; ka_a := ka_a x; ka_t0 := ka_t0 x; ka_tper := ka_tper x;
     ka_incl := ka_incl x; ka_b := ka_b x; ka_duration := d;
     ka_ecc := ka_ecc x; ka_omega := ka_omega x; ka_sin_omega := ka_sin_omega x;
     ka_cos_omega := ka_cos_omega x; ka_Omega := ka_Omega x; ka_m_planet := ka_m_planet x;
     ka_m_star := ka_m_star x; ka_r_star := ka_r_star x; ka_rho_star := ka_rho_star x;
     ka_ror := ka_ror x; ka_m_planet_units := ka_m_planet_units x;
     ka_rho_star_units := ka_rho_star_units x |}.
Definition set_unit_kw {T} (x : kargs T) (m rho : option (qty T)) (um ur : option unit_t) : kargs T :=
  {| ka_period := ka_period x; ka_a := ka_a x; ka_t0 := ka_t0 x; ka_tper := ka_tper x;
     ka_incl := ka_incl x; ka_b := ka_b x; ka_duration := ka_duration x;
     ka_ecc := ka_ecc x; ka_omega := ka_omega x; ka_sin_omega := ka_sin_omega x;
     ka_cos_omega := ka_cos_omega x; ka_Omega := ka_Omega x; ka_m_planet := m;
     ka_m_star := ka_m_star x; ka_r_star := ka_r_star x; ka_rho_star := rho;
     ka_ror := ka_ror x; ka_m_planet_units := um; ka_rho_star_units := ur |}.
Definition with_ecc (x : kargs R) (e w : R) : kargs R :=
  {| ka_period := ka_period x; ka_a := ka_a x; ka_t0 := ka_t0 x; ka_tper := ka_tper x;
     ka_incl := ka_incl x; ka_b := ka_b x; ka_duration := ka_duration x;
     ka_ecc := Some e; ka_omega := Some w; ka_sin_omega := None; ka_cos_omega := None;
     ka_Omega := ka_Omega x; ka_m_planet := ka_m_planet x; ka_m_star := ka_m_star x;
     ka_r_star := ka_r_star x; ka_rho_star := ka_rho_star x; ka_ror := ka_ror x;
     ka_m_planet_units := ka_m_planet_units x; ka_rho_star_units := ka_rho_star_units x |}.

(** an attribute of the constructed orbit as a function of one argument *)
Definition attr (r : res (orbit R)) (f : orbit R -> R) : R :=
  match r with Ok o => f o | Err _ => 0 end.

(** the documented keyword parameters of KeplerianOrbit and the two deprecated
    ones *)
Definition kepler_keywords : list string :=
  ["period"; "a"; "t0"; "t_periastron"; "incl"; "b"; "duration"; "ecc"; "omega";
   "sin_omega"; "cos_omega"; "Omega"; "m_planet"; "m_star"; "r_star"; "rho_star"; "ror";
   "m_planet_units"; "rho_star_units"]%string.

(** the radius ratio argument replaced *)
Definition set_ror (x : kargs R) (r : option R) : kargs R :=
  {| ka_period := ka_period x; ka_a := ka_a x; ka_t0 := ka_t0 x; ka_tper := ka_tper x;
     ka_incl := ka_incl x; ka_b := ka_b x; ka_duration := ka_duration x;
     ka_ecc := ka_ecc x; ka_omega := ka_omega x; ka_sin_omega := ka_sin_omega x;
     ka_cos_omega := ka_cos_omega x; ka_Omega := ka_Omega x; ka_m_planet := ka_m_planet x;
     ka_m_star := ka_m_star x; ka_r_star := ka_r_star x; ka_rho_star := ka_rho_star x;
     ka_ror := r; ka_m_planet_units := ka_m_planet_units x;
     ka_rho_star_units := ka_rho_star_units x |}.

(** the impact parameter is not to be found from a duration of an eccentric orbit *)
Definition no_ecc_duration {T} (x : kargs T) : Prop := ka_ecc x = None \/ ka_duration x = None.


(** C01: every combination of all optional arguments *)
Definition circular_with_duration {T} (x : kargs T) : bool := negb (given (ka_ecc x)) && given (ka_duration x).
Definition at_most_one (a b c : bool) : bool := negb (a && b) && negb (a && c) && negb (b && c).
Definition accepted {T} (x : kargs T) : bool :=
  negb (given (ka_t0 x) && given (ka_tper x)) &&
  if circular_with_duration x
  then given (ka_b x) && given (ka_period x) && negb (given (ka_incl x)) && negb (given (ka_rho_star x)) && negb (given (ka_m_star x))
  else legal_args x && at_most_one (given (ka_b x)) (given (ka_incl x)) (given (ka_duration x)) &&
       (negb (given (ka_ecc x)) ||
        (if given (ka_omega x) then negb (given (ka_sin_omega x) && given (ka_cos_omega x))
         else given (ka_sin_omega x) && given (ka_cos_omega x))).
