(** * C62: peaks of a periodogram *)
From Coq Require Import Reals List Bool Arith ZArith Permutation Sorted.
From Verif Require Import Num CoreOps Inst M_peaks Spec_peaks Ex_peaks L_peaks2.
Import ListNotations.
Open Scope R_scope.

(** C62: the strict interior maxima are found, the largest first and none left out
    for a smaller one; each is described by the vertex of the parabola through the
    three log-powers around it *)
Theorem C62_peaks : forall argsort fs ps (mp : Z), sorts argsort ->
  length fs = length ps -> strictly_monotone fs -> List.Forall (fun f => 0 <= f) fs ->
  exists is pks, chosen ps (Z.to_nat (Z.max 1 mp)) is /\ Forall2 (describes fs ps) is pks /\
    find_peaks argsort fs (map Fin ps) mp =
      if Z.eqb mp 0 then match pks with [] => Err ValueError | p :: _ => Ok (OnePeak p) end else Ok (PeakList pks).
Proof. exact find_peaks_law. Qed.
Print Assumptions C62_peaks.
(** the only error is ValueError, for max_peaks = 0 and no maximum *)
Theorem C62_error : forall argsort fs ps (mp : Z), sorts argsort ->
  length fs = length ps -> strictly_monotone fs -> List.Forall (fun f => 0 <= f) fs ->
  (find_peaks argsort fs (map Fin ps) mp = Err ValueError <-> mp = 0%Z /\ forall i, ~ strict_peak ps i) /\
  (forall e, find_peaks argsort fs (map Fin ps) mp = Err e -> e = ValueError).
Proof. exact find_peaks_none. Qed.
Print Assumptions C62_error.
(** the reported index is that of the sample after the maximum, which is never a maximum *)
Theorem C62_index : forall argsort fs ps mp pks, sorts argsort ->
  length fs = length ps -> strictly_monotone fs -> List.Forall (fun f => 0 <= f) fs ->
  find_peaks argsort fs (map Fin ps) mp = Ok (PeakList pks) ->
  forall p, In p pks -> strict_peak ps (pk_index p - 1) /\ ~ strict_peak ps (pk_index p).
Proof. exact find_peaks_index. Qed.
Print Assumptions C62_index.
Theorem C62_index_refuted : ~ (forall argsort fs ps mp pks, sorts argsort ->
  length fs = length ps -> strictly_monotone fs -> List.Forall (fun f => 0 <= f) fs ->
  find_peaks argsort fs (map Fin ps) mp = Ok (PeakList pks) -> forall p, In p pks -> strict_peak ps (pk_index p)).
Proof. exact find_peaks_index_wrong. Qed.
Print Assumptions C62_index_refuted.
Example C62_case : sorts isort /\ length ex_f = length ex_p /\ strictly_monotone ex_f /\ List.Forall (fun f => 0 <= f) ex_f /\
  strict_peak ex_p 1 /\ strict_peak ex_p 4.
Proof. exact (conj isort_sorts (conj eq_refl (conj ex_f_mono (conj ex_f_pos (conj ex_peak1 ex_peak4))))). Qed.
