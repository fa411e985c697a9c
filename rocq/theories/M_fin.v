(** * Finite machine numbers

    The embedding of exact reals into [fl], lifted to constructor arguments and
    orbits.  Not code of the library: used to state on which inputs the
    IEEE-style evaluation of the model agrees with the exact one. *)
From Coq Require Import Reals List Bool.
From Verif Require Import Num CoreOps Inst M_units M_kepler.

Definition map_qty {A C} (f : A -> C) (q : qty A) : qty C := Q (f (qv q)) (qu q).
Definition map_args {A C} (f : A -> C) (x : kargs A) : kargs C :=
  {| ka_period := option_map (map_qty f) (ka_period x); ka_a := option_map (map_qty f) (ka_a x);
     ka_t0 := option_map f (ka_t0 x); ka_tper := option_map f (ka_tper x);
     ka_incl := option_map f (ka_incl x); ka_b := option_map f (ka_b x);
     ka_duration := option_map (map_qty f) (ka_duration x);
     ka_ecc := option_map f (ka_ecc x); ka_omega := option_map f (ka_omega x);
     ka_sin_omega := option_map f (ka_sin_omega x); ka_cos_omega := option_map f (ka_cos_omega x);
     ka_Omega := option_map f (ka_Omega x);
     ka_m_planet := option_map (map_qty f) (ka_m_planet x);
     ka_m_star := option_map (map_qty f) (ka_m_star x);
     ka_r_star := option_map (map_qty f) (ka_r_star x);
     ka_rho_star := option_map (map_qty f) (ka_rho_star x);
     ka_ror := option_map f (ka_ror x);
     ka_m_planet_units := ka_m_planet_units x; ka_rho_star_units := ka_rho_star_units x |}.
Definition map_eccd {A C} (f : A -> C) (d : eccd A) : eccd C :=
  {| e_ecc := f (e_ecc d); e_omega := f (e_omega d); e_cosw := f (e_cosw d); e_sinw := f (e_sinw d) |}.
Definition map_omgd {A C} (f : A -> C) (d : omgd A) : omgd C :=
  {| O_Omega := f (O_Omega d); O_cos := f (O_cos d); O_sin := f (O_sin d) |}.
Definition map_jacd {A C} (f : A -> C) (d : jacd A) : jacd C :=
  {| j_a := f (j_a d); j_a_star := f (j_a_star d); j_a_planet := f (j_a_planet d); j_rho := f (j_rho d) |}.
Definition map_orbit {A C} (f : A -> C) (o : orbit A) : orbit C :=
  {| o_a := f (o_a o); o_period := f (o_period o); o_rho_star := f (o_rho_star o);
     o_r_star := f (o_r_star o); o_m_star := f (o_m_star o); o_m_planet := f (o_m_planet o);
     o_m_total := f (o_m_total o); o_n := f (o_n o); o_a_star := f (o_a_star o);
     o_a_planet := f (o_a_planet o); o_K0 := f (o_K0 o);
     o_Omega := option_map (map_omgd f) (o_Omega o); o_ecc := option_map (map_eccd f) (o_ecc o);
     o_M0 := f (o_M0 o); o_dcosidb := f (o_dcosidb o); o_b := f (o_b o);
     o_cos_incl := f (o_cos_incl o); o_incl := f (o_incl o); o_sin_incl := f (o_sin_incl o);
     o_t0 := f (o_t0 o); o_tper := f (o_tper o); o_tref := f (o_tref o);
     o_jac := option_map (map_jacd f) (o_jac o); o_duration := option_map f (o_duration o) |}.
Definition map_vec {A C} (f : A -> C) (v : A * A * A) : C * C * C :=
  let '(x, y, z) := v in (f x, f y, f z).

Definition fin_args : kargs R -> kargs fl := map_args Fin.
Definition fin_orbit : orbit R -> orbit fl := map_orbit Fin.
Definition fin3 : R * R * R -> fl * fl * fl := map_vec Fin.

(** planet [i] of an array orbit, element [i] of array arguments *)
Definition args_at (i : idx) : kargs tens -> kargs fl := map_args (fun a : tens => aget a i).
Definition orbit_at (i : idx) : orbit tens -> orbit fl := map_orbit (fun a : tens => aget a i).
Definition vec_at (i : idx) : tens * tens * tens -> fl * fl * fl := map_vec (fun a : tens => aget a i).
