(** * Specification vocabulary for rounding errors in regular_grid_interp *)
From Coq Require Import Reals List Bool Arith ZArith.
From Verif Require Import Num CoreOps Inst M_units M_kepler M_tensor M_grid Spec_array Spec_light Spec_grid Spec_float Spec_float2.
Import ListNotations.
Open Scope R_scope.

(** the arithmetic of arrays with the result for each element rounded *)
Definition rounded_tens (rd : rounder) : Num tens btens := let N := rounded_fl rd in {|
  nlit := fun r => alit (@nlit fl bool N r);
  nadd := amap2 (@nadd fl bool N); nsub := amap2 (@nsub fl bool N); nmul := amap2 (@nmul fl bool N); ndiv := amap2 (@ndiv fl bool N);
  nneg := amap fneg;
  nsqrt := amap (@nsqrt fl bool N); nsin := amap (@nsin fl bool N); ncos := amap (@ncos fl bool N);
  nasin := amap (@nasin fl bool N); nacos := amap (@nacos fl bool N);
  natan2 := amap2 (@natan2 fl bool N); nexp := amap (@nexp fl bool N); nlog := amap (@nlog fl bool N); nabs := amap fabs;
  nfloor := amap ffloor; nmod := amap2 (@nmod fl bool N); npowr := amap2 (@npowr fl bool N);
  nkepler_sin := amap2 (@nkepler_sin fl bool N); nkepler_cos := amap2 (@nkepler_cos fl bool N);
  nzl := amap (fun _ => Fin 0); npadr := apadr; nsqz := asqz;
  nlt := amap2 flt; nle := amap2 fle; nband := amap2 andb;
  nsw := amap3 (fun (c : bool) (a b : fl) => if c then a else b) |}.
(** the result as the machine computes it *)
Definition computed_interp (rd : rounder) := @regular_grid_interp (rounded_tens rd).

(** how much continuing a cell beyond the ends of the grid magnifies errors; 1
    inside the cell *)
Fixpoint stretch (ys : list R) : R :=
  match ys with
  | [] => 1
  | y :: ys => (Rabs (1 - y) + Rabs y) * stretch ys
  end.
(** the relative error with D axes: 2^D terms and D factors in each *)
Definition grid_error (u : R) (D : nat) : R := (1 + u) ^ (2 ^ D + 1) * (1 + 10 * u) ^ D - 1.
(** the machine returns these numbers without an error when they are the exact
    result *)
Definition exact_on (rd : rounder) (P : R -> Prop) : Prop := forall op x y r, P r -> rd op x y r = r.
