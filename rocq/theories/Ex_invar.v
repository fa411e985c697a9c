(** * The same observations written down differently: examples *)
From Coq Require Import Reals Lra Lia List Bool Arith ZArith Permutation String Sorted.
From Verif Require Import Num CoreOps Inst CoreLin M_units M_kepler M_dist M_ttv M_rv M_peaks M_acorr M_bls Spec_orbit Spec_rv Spec_bls Spec_invar L_params3 Ex_bls Ex_orbit Ex_rv.
Import ListNotations.
Open Scope R_scope.

(** in the opposite order, five days later, velocities doubled and 3 m/s higher *)
Lemma rewritten_example : rv_data ek (plain one_ts) (plain [1; 2; 4]) None one_ts [1; 2; 4] [1; 1; 1] /\
  rv_data ek (plain [10; 15 / 2; 5]) (plain [11; 7; 5]) None [10; 15 / 2; 5] [11; 7; 5] [1; 1; 1] /\
  rewritten 5 2 3 1 one_ts [1; 2; 4] [1; 1; 1] [10; 15 / 2; 5] [11; 7; 5] [1; 1; 1].
Proof.
  split; [exact (plain_data one_ts [1; 2; 4] eq_refl)|]. split; [exact (plain_data [10; 15 / 2; 5] [11; 7; 5] eq_refl)|].
  unfold rewritten, observations, one_ts. cbn [combine map fst snd]. replace (0 + 5) with 5 by ring. replace (5 / 2 + 5) with (15 / 2) by field. replace (5 + 5) with 10 by ring.
  replace (2 * 1 + 3) with 5 by ring. replace (2 * 2 + 3) with 7 by ring. replace (2 * 4 + 3) with 11 by ring. rewrite Rmult_1_r.
  exact (Permutation_rev [(10, 11, 1); (15 / 2, 7, 1); (5, 5, 1)]).
Qed.
Lemma one_transit_time_example : one_transit_time ex_astropy.
Proof.
  intros t y yerr dur kw pg E. cbn [autopower ex_astropy] in E. destruct (ex_keys kw); [|discriminate]. apply Ok_inj in E. subst pg. cbn. intros [Q|[]]. discriminate.
Qed.
Lemma sorted_example : StronglySorted Rlt [0; 1; 3].
Proof. repeat (constructor; [|repeat (constructor; [lra|]); constructor]). constructor. Qed.
