(** * External operation ops.quad_solution_vector (package exoplanet_core)

    The compiled operation is not part of /repo.  It is used in
    src/exoplanet/light_curves/limb_dark.py:24 and modelled by its mathematical
    definition: the integrals of the basis functions 1, mu and 4 mu^2 - 2 over
    the part of the stellar disk (radius 1) that a dark disk of radius r whose
    centre is at distance b leaves visible, in polar coordinates about the
    star's centre. *)
From Coq Require Import Reals.
From Coquelicot Require Import Coquelicot.
From Verif Require Import Num Inst.
Open Scope R_scope.

(** the angle covered by the dark disk on the circle of radius rho *)
Definition hidden_angle (b r rho : R) : R :=
  if Rle_dec (rho + b) r then 2 * PI
  else if Rle_dec r (Rabs (rho - b)) then 0
  else 2 * acos ((rho * rho + b * b - r * r) / (2 * rho * b)).
Definition visible_angle (b r rho : R) : R := 2 * PI - hidden_angle b r rho.

(** mu = cosine of the angle between line of sight and surface normal *)
Definition mu_of (rho : R) : R := sqrt (1 - rho * rho).
Definition visible_flux (g : R -> R) (b r : R) : R :=
  RInt (fun rho => g (mu_of rho) * visible_angle b r rho * rho) 0 1.

Definition basis0 (mu : R) : R := 1.
Definition basis1 (mu : R) : R := mu.
Definition basis2 (mu : R) : R := 4 * (mu * mu) - 2.

(** the three components on machine numbers; the operation takes absolute
    values.  Simplified: infinite arguments give NaN. *)
Definition fsolution (g : R -> R) (b r : fl) : fl :=
  match b, r with
  | Fin b, Fin r => Fin (visible_flux g (Rabs b) (Rabs r))
  | _, _ => NaN
  end.
(** the operation as a parameter of the light curves (function of the basis
    function, the distance and the radius); exact unless something else is given *)
Class FluxOp := flux_op : (R -> R) -> fl -> fl -> fl.
#[global] Instance exact_flux : FluxOp | 5 := fsolution.
