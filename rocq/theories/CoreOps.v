(** * External numerical operations (package exoplanet_core)

    The compiled operations are not part of /repo; they are modelled by their
    mathematical definition.  This file: [ops.kepler], used in
    src/exoplanet/orbits/keplerian.py:333 and :818. *)
From Coq Require Import Reals Lra.
From Verif Require Import Num.
Open Scope R_scope.

(** Kepler's equation E - e sin E - M = 0 *)
Definition kepler_eqn (e M E : R) : R := E - e * sin E - M.

Lemma esin_bound (e x : R) : Rabs e < 1 -> -2 < e * sin x < 2.
Proof.
  intros He. apply Rabs_def2 in He. generalize (SIN_bound x); intros.
  split; nra.
Qed.

Lemma kepler_exists (e M : R) (He : Rabs e < 1) :
  { E : R | M - 2 <= E <= M + 2 /\ kepler_eqn e M E = 0 }.
Proof.
  apply IVT; unfold kepler_eqn.
  - apply continuity_minus.
    + apply continuity_minus.
      * apply derivable_continuous, derivable_id.
      * apply continuity_mult; [apply continuity_const; intros x y; reflexivity|].
        apply continuity_sin.
    + apply continuity_const; intros x y; reflexivity.
  - lra.
  - generalize (esin_bound e (M - 2) He). lra.
  - generalize (esin_bound e (M + 2) He). lra.
Qed.

(** Eccentric anomaly.  Outside |e| < 1 the equation has no unique solution;
    the value there is irrelevant (no theorem depends on it). *)
Definition ecc_anom (M e : R) : R :=
  match Rlt_dec (Rabs e) 1 with
  | left h => proj1_sig (kepler_exists e M h)
  | right _ => M
  end.

(** ops.kepler returns sin and cos of the true anomaly *)
Definition kepler_cosf (M e : R) : R :=
  (cos (ecc_anom M e) - e) / (1 - e * cos (ecc_anom M e)).
Definition kepler_sinf (M e : R) : R :=
  sqrt (1 - e * e) * sin (ecc_anom M e) / (1 - e * cos (ecc_anom M e)).
