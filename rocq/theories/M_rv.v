(** * Model of the radial-velocity estimators, src/exoplanet/estimators.py:24-116

    Arrays are one-dimensional (scalars are vectors of length one after
    [np.atleast_1d]); arithmetic is exact.  A Quantity is a [qty] with a unit.
    np.linalg.solve is [linsolve] of CoreLin.v. *)
From Coq Require Import Reals List Bool Arith ZArith Lra.
From Verif Require Import Num CoreLin M_units M_ttv.
Import ListNotations.
Open Scope R_scope.

(** [u.Quantity(np.atleast_1d(x), unit=target).value]: a plain number gets the
    unit, a Quantity is converted (astropy) *)
Definition quantity_value (x : qty (list R)) (target : unit_t) : res (list R) :=
  match qu x with
  | None => Ok (qv x)
  | Some v => f <- uto v target ;; Ok (map (fun z => z * f) (qv x))
  end.
(** the unit of [1.0 / yerr**2] (astropy) *)
Definition unit_inv_sq (v : unit_t) : unit_t :=
  let '(a, b, c) := udim v in
  {| udim := (-2 * a, -2 * b, -2 * c)%Z; uscale := / (uscale v * uscale v) |}.
(** [(u.s / u.m) ** 2], estimators.py:76 *)
Definition u_ivar (k : consts) : unit_t := {| udim := (0, -2, 2)%Z; uscale := / (s_mps k * s_mps k) |}.

(** estimators.py:24-45: the rows of the design matrix *)
Definition design_matrix (periods : list R) (t0s : option (list R)) (x : list R) : res (list (list R)) :=
  match t0s with
  | Some t0s =>
      if Nat.ltb (length t0s) (length periods) then Err IndexErr   (* t0s[i] *)
      else Ok (map (fun x => map (fun pt => cos (2 * PI * (x - (snd pt - 0.25 * fst pt)) / fst pt))
                                 (combine periods t0s) ++ [1]) x)
  | None =>
      Ok (map (fun x => concat (map (fun p => [sin (2 * PI * x / p); cos (2 * PI * x / p)]) periods) ++ [1]) x)
  end.

(** [np.dot(D.T, E)] for matrices with rows of length p, [np.dot(D.T, v)] *)
Definition tdot (D E : list (list R)) (p : nat) : res (list (list R)) :=
  if Nat.eqb (length D) (length E) then
    Ok (map (fun i => map (fun j => dot (map (fun r => nth i r 0) D) (map (fun r => nth j r 0) E)) (seq 0 p)) (seq 0 p))
  else Err ShapeErr.
Definition tdotv (D : list (list R)) (v : list R) (p : nat) : res (list R) :=
  if Nat.eqb (length D) (length v) then Ok (map (fun i => dot (map (fun r => nth i r 0) D) v) (seq 0 p))
  else Err ShapeErr.

(** [np.sqrt(w[::2] ** 2 + w[1::2] ** 2)] *)
Fixpoint amplitudes (w : list R) : list R :=
  match w with
  | a :: b :: w => sqrt (a * a + b * b) :: amplitudes w
  | _ => []
  end.

(** estimators.py:48-87 *)
Definition estimate_semi_amplitude (k : consts) (periods x y : qty (list R)) (yerr t0s : option (qty (list R)))
  : res (list R) :=
  let ivar := match yerr with
              | None => Q (map (fun _ => 1) (qv y)) (qu y)                             (* ones_like keeps the unit *)
              | Some e => Q (map (fun z => 1 / (z * z)) (qv e)) (option_map unit_inv_sq (qu e))
              end in
  P <- quantity_value periods (u_day k) ;;
  T0 <- match t0s with None => Ok None | Some t => v <- quantity_value t (u_day k) ;; Ok (Some v) end ;;
  X <- quantity_value x (u_day k) ;;
  Y <- quantity_value y (u_mps k) ;;
  V <- quantity_value ivar (u_ivar k) ;;
  D <- design_matrix P T0 X ;;
  let p := match T0 with Some _ => S (length P) | None => S (2 * length P) end in      (* columns of D *)
  DV <- lmap2 (fun r v => map (fun z => z * v) r) D V ;;
  YV <- lmap2 Rmult Y V ;;
  A <- tdot D DV p ;;
  b <- tdotv D YV p ;;
  w <- linsolve A b ;;
  match T0 with
  | Some _ => Ok (removelast w)
  | None => Ok (amplitudes (removelast w))
  end.

(** estimators.py:90-116.  [m_J] is the unit u.M_jupiter; powers of positive
    numbers only. *)
Definition estimate_minimum_mass (k : consts) (m_J : unit_t) (periods x y : qty (list R))
  (yerr t0s : option (qty (list R))) (m_star : qty R) : res (qty (list R)) :=
  P <- quantity_value periods (u_day k) ;;
  m <- match qu m_star with None => Ok (qv m_star) | Some v => f <- uto v (u_M_sun k) ;; Ok (qv m_star * f) end ;;
  K <- estimate_semi_amplitude k (Q P (Some (u_day k))) x y yerr t0s ;;
  r <- lmap2 Rmult (map (fun K => K / 28.4329 * Rpower m (2 / 3)) K)
                   (map (fun p => Rpower (p / 365.25) (1 / 3)) P) ;;                   (* u.year = 365.25 d *)
  Ok (Q r (Some m_J)).
