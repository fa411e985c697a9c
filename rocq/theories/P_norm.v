(** * The prior of vaneylen19 as a density: property C96 *)
From Coq Require Import Reals List String.
From Coquelicot Require Import Coquelicot.
From Verif Require Import Num CoreOps Inst CoreDist M_kwargs M_tensor M_dist M_ecc Spec_dist Spec_ecc Spec_norm L_ecc3 L_norm.
Import ListNotations.
Open Scope R_scope.

(** positive, of total mass one over the eccentricities from 0 on, and of a
    mass strictly between 0 and 1 over any interval *)
Theorem C96_normalised : forall p logp name fixed multi lower upper model kw, logp_ok logp -> not_observed kw \/ p = true ->
  absent ["lower"; "upper"]%string kw -> exists c s hs prior out sg sr frac,
    vaneylen19 p logp true name fixed multi lower upper model kw = Ok (c :: s :: hs ++ [Potential [name] "prior" prior], out) /\
    vaneylen_parameters p name fixed multi hs sg sr frac /\
    forall e w g r f, aget (sg e) w = Fin g -> aget (sr e) w = Fin r -> aget (frac e) w = Fin f -> 0 < g -> 0 < r -> 0 < f < 1 ->
      let d v := density_of (aget (prior (with_value e name v)) w) in
      (forall v, 0 <= v -> 0 < d v) /\ is_RInt_gen d (at_point 0) (Rbar_locally p_infty) 1 /\
      forall lo hi, 0 <= lo < hi -> is_RInt d lo hi (share f g r lo hi) /\ 0 < share f g r lo hi < 1.
Proof. exact van_normalised. Qed.
Print Assumptions C96_normalised.

(** the wider either part, the less of it remains below a bound *)
Theorem C96_wider : forall f g g' r r' hi, 0 < f < 1 -> 0 < g <= g' -> 0 < r <= r' -> g < g' \/ r < r' -> 0 < hi ->
  share f g' r' 0 hi < share f g r 0 hi.
Proof. exact share_wider. Qed.
Print Assumptions C96_wider.

(** so the mass between 0 and 1 is not the same for all hyperparameters:
    marginalising over the eccentricity does not give back their prior *)
Theorem C96_hyperprior_refuted : forall p logp name multi model kw, logp_ok logp -> not_observed kw \/ p = true ->
  absent ["lower"; "upper"]%string kw -> exists c s hs prior out sg sr frac,
    vaneylen19 p logp true name false multi None None model kw = Ok (c :: s :: hs ++ [Potential [name] "prior" prior], out) /\
    vaneylen_parameters p name false multi hs sg sr frac /\
    ~ exists m, forall e w g r f, aget (sg e) w = Fin g -> aget (sr e) w = Fin r -> aget (frac e) w = Fin f -> 0 < g -> 0 < r -> 0 < f < 1 ->
        is_RInt (fun v => density_of (aget (prior (with_value e name v)) w)) 0 1 m.
Proof. exact van_reweighted. Qed.
Print Assumptions C96_hyperprior_refuted.

Example C96_example : logp_ok ex_logp /\ not_observed ex_ekw /\ absent ["lower"; "upper"]%string ex_ekw.
Proof. exact norm_example. Qed.
