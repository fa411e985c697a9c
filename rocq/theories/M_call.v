(** * Positional arguments of the orbits' constructors

    KeplerianOrbit: orbits/keplerian.py:75-96; TTVOrbit: orbits/ttv.py:71-173;
    SimpleTransitOrbit: orbits/simple.py:24.  Python's own rules of binding are
    part of the model: positional arguments are bound in the order of the
    signature, then keyword arguments by name; too many positional arguments and
    a parameter bound twice are a TypeError, and so is a keyword the signature
    does not name if it has no ** kwargs, and a missing required parameter.  The
    order in which a call with several such mistakes is diagnosed does not
    matter, the error being the same. *)
From Coq Require Import Reals List Bool Arith ZArith String.
From Verif Require Import Num CoreOps Inst M_units M_kepler M_kwargs M_tensor M_ttv M_simple.
Import ListNotations.
Open Scope string_scope.

(** keplerian.py:77-95 *)
Definition kep_signature : list string :=
  ["period"; "a"; "t0"; "t_periastron"; "incl"; "b"; "duration"; "ecc"; "omega"; "sin_omega"; "cos_omega"; "Omega";
   "m_planet"; "m_star"; "r_star"; "rho_star"; "ror"; "model"].
(** simple.py:24 *)
Definition simple_signature : list string := ["period"; "duration"; "t0"; "b"; "r_star"; "ror"].

(** one parameter after the other *)
Fixpoint bind_positional {A} (names : list string) (args : list A) (kw : list (string * A)) : res (list (string * A)) :=
  match args, names with
  | [], _ => Ok kw
  | _ :: _, [] => Err TypeErr
  | v :: args, n :: names =>
      match lookup n kw with
      | Some _ => Err TypeErr
      | None => r <- bind_positional names args kw ;; Ok ((n, v) :: r)
      end
  end.

Section G.
Context {T B : Type} {N : Num T B}.
Variable k : consts.

(** KeplerianOrbit( *args, **kw ) *)
Definition kep_construct (args : list (kval T)) (kw : list (string * kval T)) : res (orbit T) :=
  l <- bind_positional kep_signature args kw ;; kep_call k l.

(** a parameter of SimpleTransitOrbit: a number, or a tensor whose unit
    (units.py:9-12) is never looked at.  That None and units are refused is
    Python's or the tensor library's doing; the kind of error is a guess.  An
    astropy quantity, which would end up in the speed (simple.py:32-33), is not
    modelled. *)
Definition simple_num (n : string) (l : list (string * kval T)) : res (option T) :=
  match lookup n l with
  | None => Ok None
  | Some (KNum q) => Ok (Some (qv q))
  | Some _ => Err TypeErr
  end.
(** SimpleTransitOrbit( *args, **kw ); a class without ** kwargs *)
Definition simple_construct (args : list (kval T)) (kw : list (string * kval T)) : res (simple T) :=
  l <- bind_positional simple_signature args kw ;;
  if forallb (fun p => existsb (String.eqb (fst p)) simple_signature) l then
    period <- simple_num "period" l ;; duration <- simple_num "duration" l ;;
    t0 <- simple_num "t0" l ;; b <- simple_num "b" l ;; r_star <- simple_num "r_star" l ;; ror <- simple_num "ror" l ;;
    match period, duration with
    | Some p, Some d => Ok (simple_init {| sa_period := p; sa_duration := d; sa_t0 := t0; sa_b := b; sa_r_star := r_star; sa_ror := ror |})
    | _, _ => Err TypeErr
    end
  else Err TypeErr.
End G.

(** TTVOrbit( *args, ttvs, transit_times, transit_inds, **kw ): ttv.py:71-173 with
    [super().__init__( *args, **kwargs )] in line 142 *)
Definition ttv_construct (k : consts) (args : list (kval tens)) (x : targs) : res ttvorbit :=
  match ta_ttvs x, ta_times x with
  | None, None => Err ValueError                                   (* 75-78 *)
  | Some ttvs, _ =>                                                (* 79-89, 144-149 *)
      let inds := match ta_inds x with
                  | None => map (fun ttv => zarange (Z.of_nat (List.length ttv))) ttvs
                  | Some l => l
                  end in
      o <- kep_construct k args (ta_kw x) ;;                       (* 142 *)
      times <- imap (fun i ttv => t0 <- tix (o_t0 o) i ;; p <- tix (o_period o) i ;; z <- lix inds i ;;
                                  ttv_labelled t0 p z ttv) ttvs ;;
      ttv_finish o ttvs inds times (o_period o)
  | None, Some times =>                                            (* 91-140 *)
      fits <- imap (fit_planet (ta_inds x)) times ;;
      t0 <- tstack (map (fun f => intercept_of (snd f)) fits) ;;   (* 125 *)
      P <- tstack (map (fun f => slope_of (snd f)) fits) ;;        (* 132 *)
      kw <- ttv_kwargs P t0 (ta_kw x) ;;
      o <- kep_construct k args kw ;;                              (* 142 *)
      ttv_finish o (map (fun f => snd (snd f)) fits) (map fst fits) times P
  end.
