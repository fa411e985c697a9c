(** * Cutting, joining and reordering observations: TTVOrbit, an example *)
From Coq Require Import Reals Lra Lia List Bool Arith ZArith Sorted.
From Verif Require Import Num CoreOps Inst CoreFlux M_units M_kepler M_fin M_tensor M_simple M_ttv M_limbdark Spec_orbit Spec_params Spec_array Spec_simple Spec_ttv Spec_light Spec_undef Spec_split
  L_real L_orbit L_tens L_array L_simple L_simple2 L_ttv3 L_ttv6 L_ttv7 L_light8 L_undef L_undef2 L_undef3 L_split Ex_orbit Ex_system.
Import ListNotations.
Local Notation length := List.length.
Open Scope R_scope.

Lemma split_motion_ttv : forall k n o os tts N t ts N' t' ts' b, consts_ok k -> ttv_system k n o os tts -> is_vector N t -> (forall m, (m < N)%nat -> aget t (at_time m) = Fin (ts m)) ->
  is_vector N' t' -> (forall m, (m < N')%nat -> aget t' (at_time m) = Fin (ts' m)) ->
  exists f f' g g', is_table3 n N (tpos k o b t None false) f /\ is_table3 n N' (tpos k o b t' None false) f' /\ is_table3 n N (tvel o b t) g /\ is_table3 n N' (tvel o b t') g' /\
    forall m m' j, (m < N)%nat -> (m' < N')%nat -> (j < n)%nat -> ts m = ts' m' -> f m j = f' m' j /\ g m j = g' m' j.
Proof.
  intros k n o os tts N t ts N' t' ts' b kok sys Ht Hts Ht' Hts'.
  exists (fun m j => fin3 (pos k (os j) b (eq_time o os ts m j) None false)), (fun m j => fin3 (pos k (os j) b (eq_time o os ts' m j) None false)), (fun m j => fin3 (vel (os j) b (eq_time o os ts m j))), (fun m j => fin3 (vel (os j) b (eq_time o os ts' m j))).
  split; [apply (tpos_table k n N o os tts t ts); assumption|]. split; [apply (tpos_table k n N' o os tts t' ts'); assumption|]. split; [apply (tvel_table k n N o os tts t ts); assumption|]. split; [apply (tvel_table k n N' o os tts t' ts'); assumption|].
  intros m m' j _ _ _ E. unfold eq_time, tv_of. rewrite E. split; reflexivity.
Qed.
