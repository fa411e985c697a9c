From Coq Require Import Reals List Bool Lra Psatz.
From Verif Require Import Num CoreOps Inst M_units M_kepler M_fin Spec_orbit Spec_params L_real L_kepop L_orbit L_motion L_params3 L_pmotion L_fl L_fl2 L_fl3.
Open Scope R_scope.
From Verif Require Import L_fl4.

Lemma massless_acc : forall k (x : kargs R) o,
  consts_ok k -> kep_init k x = Ok o -> physical o -> no_ecc_duration x ->
  exists fo, kep_init k (fin_args x) = Ok fo /\ forall t,
  (o_m_planet o = 0 -> acc fo Star (Fin t) = (NaN, NaN, NaN)) /\ (o_m_star o = 0 -> acc fo Planet (Fin t) = (NaN, NaN, NaN)).
Proof.
  intros k x o kok H ph Hd. destruct (massless_nan k x o kok H ph Hd) as [fo [E M]].
  exists fo. split; [exact E|]. intro t. destruct (M t) as [A B].
  split; intro Z; [exact (proj1 (A Z))|exact (proj1 (B Z))].
Qed.
