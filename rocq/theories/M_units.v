(** * Model of src/exoplanet/orbits/constants.py and src/exoplanet/units.py
    (value level; the object-identity behaviour of units.py is in M_heap.v) *)
From Coq Require Import Reals List Bool ZArith.
From Verif Require Import Num.
Open Scope R_scope.

(** An astropy unit: exponents of (mass, length, time) and the size of the unit
    in some fixed base system.  Astropy itself is external; only the rule
    "conversion multiplies by the ratio of sizes and fails for different
    dimensions" is modelled. *)
Record unit_t := { udim : Z * Z * Z; uscale : R }.

Definition dim_eqb (a b : Z * Z * Z) : bool :=
  match a, b with
  | (x, y, z), (x', y', z') => Z.eqb x x' && Z.eqb y y' && Z.eqb z z'
  end.

(** [base.to(target)] of units.py:45 *)
Definition uto (u v : unit_t) : res R :=
  if dim_eqb (udim u) (udim v) then Ok (uscale u / uscale v) else Err UnitErr.

(** constants.py:15-37.  The values depend on the astropy version (the module
    has a fallback branch with literals), hence a record. *)
Record consts := {
  G_grav : R;            (* R_sun^3 / M_sun / day^2 *)
  gcc_per_sun : R;       (* (M_sun / R_sun^3) in g / cm^3 *)
  au_per_R_sun : R;
  c_light : R;           (* R_sun / day *)
  s_M_sun : R;           (* size of u.M_sun, u.R_sun, u.day in the base system *)
  s_R_sun : R;
  s_day : R;
  s_gcc : R;             (* size of u.g / u.cm**3 *)
  s_mps : R              (* size of u.m / u.s *)
}.

(** What the theorems assume about the constants: positivity, and that
    gcc_per_sun is the conversion factor it is named after (constants.py:17). *)
Record consts_ok (k : consts) : Prop := {
  ok_G : 0 < G_grav k;
  ok_au : 0 < au_per_R_sun k;
  ok_c : 0 < c_light k;
  ok_M : 0 < s_M_sun k;
  ok_R : 0 < s_R_sun k;
  ok_d : 0 < s_day k;
  ok_g : 0 < s_gcc k;
  ok_mps : 0 < s_mps k;
  ok_gcc : gcc_per_sun k = (s_M_sun k / s_R_sun k ^ 3) / s_gcc k
}.

Definition u_M_sun (k : consts) := {| udim := (1, 0, 0)%Z; uscale := s_M_sun k |}.
Definition u_R_sun (k : consts) := {| udim := (0, 1, 0)%Z; uscale := s_R_sun k |}.
Definition u_day (k : consts) := {| udim := (0, 0, 1)%Z; uscale := s_day k |}.
(* u.M_sun / u.R_sun**3, keplerian.py:907 *)
Definition u_rho_sun (k : consts) :=
  {| udim := (1, -3, 0)%Z; uscale := s_M_sun k / s_R_sun k ^ 3 |}.
(* u.g / u.cm**3 *)
Definition u_gcc (k : consts) := {| udim := (1, -3, 0)%Z; uscale := s_gcc k |}.
(* u.m / u.s *)
Definition u_mps (k : consts) := {| udim := (0, 1, -1)%Z; uscale := s_mps k |}.
(* u.R_sun / u.day *)
Definition u_Rsun_per_day (k : consts) :=
  {| udim := (0, 1, -1)%Z; uscale := s_R_sun k / s_day k |}.

(** The literals of constants.py:32-37 (fallback branch). *)
Definition fallback_consts : consts := {|
  G_grav := 2942.2062175044193;
  gcc_per_sun := 5.905271918964842;
  au_per_R_sun := 0.00465046726096215;
  c_light := 37231.66360672704;
  s_M_sun := 5.905271918964842; s_R_sun := 1; s_day := 1; s_gcc := 1; s_mps := 1
|}.

(** A numeric argument, possibly tagged by [with_unit] (units.py:8-23). *)
Record qty (T : Type) := Q { qv : T; qu : option unit_t }.
Arguments Q {T} qv qu.
Arguments qv {T} q.
Arguments qu {T} q.
Definition plain {T} (x : T) : qty T := Q x None.
Definition tagged {T} (x : T) (u : unit_t) : qty T := Q x (Some u).

Section G.
Context {T B : Type} {N : Num T B}.

(** units.py:31-45 *)
Definition to_unit (x : qty T) (target : unit_t) : res T :=
  match qu x with
  | None => Ok (qv x)
  | Some u => rmap (fun f => nmul (qv x) (nlit f)) (uto u target)
  end.

(** units.py:8-23 at value level *)
Definition with_unit (x : qty T) (u : unit_t) : res (qty T) :=
  match qu x with
  | Some _ => Err TypeErr
  | None => Ok (Q (qv x) (Some u))
  end.

Definition opt_to_unit (x : option (qty T)) (u : unit_t) : res (option T) :=
  match x with
  | None => Ok None
  | Some q => rmap Some (to_unit q u)
  end.
End G.
