(** * Specification vocabulary for impact parameters no orbit can have *)
From Coq Require Import Reals List Bool Arith ZArith.
From Verif Require Import Num CoreOps Inst M_units M_kepler M_fin M_tensor Spec_orbit Spec_params Spec_array.
Open Scope R_scope.

(** distance of planet and star at inferior conjunction (true anomaly
    pi/2 - omega); the largest distance at which the planet can be projected
    from the centre of the star at that moment *)
Definition separation (o : orbit R) : R := o_a o * (1 - ecc_of o * ecc_of o) / (1 + ecc_of o * sinw_of o).

(** x asks for the impact parameter b on an orbit that, seen edge on, would be
    o; the planet never gets that far from the star at conjunction *)
Record unreachable (k : consts) (x : kargs R) (o : orbit R) (b : R) : Prop := {
  ur_b : ka_b x = Some b;
  ur_incl : ka_incl x = None;
  ur_duration : ka_duration x = None;
  ur_init : kep_init k (set_incl x (Some 0) None) = Ok o;
  ur_phys : physical o;
  ur_far : separation o < Rabs b * o_r_star o
}.

(** n planets; planet j is an ordinary one, with orbit os j, or one with the
    unreachable impact parameter bs j, whose edge on orbit is os j *)
Record mixed_system (k : consts) (n : nat) (x : kargs tens) (xs : nat -> kargs R) (os : nat -> orbit R) (bs : nat -> option R) : Prop := {
  mx_n : (0 < n)%nat;
  mx_args : planet_args n x;
  mx_at : forall j, (j < n)%nat -> args_at (at_planet j) x = fin_args (xs j);
  mx_planet : forall j, (j < n)%nat -> match bs j with
    | None => kep_init k (xs j) = Ok (os j) /\ physical (os j) /\ no_ecc_duration (xs j)
    | Some b => unreachable k (xs j) (os j) b
    end
}.

(** cosine and sine of the longitude of the ascending node; an orbit without
    one is not rotated *)
Definition cosO_of (o : orbit R) : R := match o_Omega o with None => 1 | Some w => O_cos w end.
Definition sinO_of (o : orbit R) : R := match o_Omega o with None => 0 | Some w => O_sin w end.
