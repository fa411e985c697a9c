(** * Specification vocabulary for periodogram peaks *)
From Coq Require Import Reals List Bool Arith ZArith Permutation Sorted.
From Verif Require Import Num Inst M_peaks.
Import ListNotations.
Open Scope R_scope.

(** what numpy guarantees about argsort on finite numbers *)
Definition sorts (argsort : list fl -> list nat) : Prop := forall ps : list R,
  Permutation (argsort (map Fin ps)) (seq 0 (length ps)) /\
  StronglySorted Rle (map (fun j => nth j ps 0) (argsort (map Fin ps))).

(** an interior sample strictly larger than both of its neighbours *)
Definition strict_peak (ps : list R) (i : nat) : Prop :=
  (1 <= i)%nat /\ (i + 1 < length ps)%nat /\ nth (i - 1) ps 0 < nth i ps 0 /\ nth (i + 1) ps 0 < nth i ps 0.
Definition strictly_monotone (fs : list R) : Prop := StronglySorted Rlt fs \/ StronglySorted Rgt fs.

(** the peak describes the vertex of the parabola through the three log-powers
    around sample i; the vertex is nearer to sample i than to its neighbours *)
Definition parabola_fit (fs ps : list R) (i : nat) (p : peak) : Prop :=
  exists a b c : R, a < 0 /\
    (forall j, (i - 1 <= j <= i + 1)%nat -> a * nth j fs 0 ^ 2 + b * nth j fs 0 + c = ln (nth j ps 0)) /\
    let v := - b / (2 * a) in
    Rmin (nth (i - 1) fs 0 + nth i fs 0) (nth i fs 0 + nth (i + 1) fs 0) < 2 * v <
      Rmax (nth (i - 1) fs 0 + nth i fs 0) (nth i fs 0 + nth (i + 1) fs 0) /\
    0 < v /\ pk_period p = Fin (1 / v) /\
    pk_log_power p = Fin (a * v ^ 2 + b * v + c) /\ ln (nth i ps 0) <= a * v ^ 2 + b * v + c /\
    pk_period_uncert p = Fin (sqrt (- (1 / (2 * a)) / v ^ 4)).
Definition no_fit (p : peak) : Prop := pk_period p = NaN /\ pk_log_power p = NaN /\ pk_period_uncert p = NaN.

(** the samples chosen by find_peaks: strict maxima, in decreasing order of power,
    at most m of them, none left out for a smaller one *)
Record chosen (ps : list R) (m : nat) (is : list nat) : Prop := {
  ch_nodup : NoDup is;
  ch_peaks : forall i, In i is -> strict_peak ps i;
  ch_desc : StronglySorted (fun i j => nth j ps 0 <= nth i ps 0) is;
  ch_len : (length is <= m)%nat;
  ch_rest : forall i, strict_peak ps i -> ~ In i is -> length is = m /\ forall j, In j is -> nth i ps 0 <= nth j ps 0
}.
(** the dictionary for sample i: its index is one too large; the fit needs three
    positive powers *)
Definition describes (fs ps : list R) (i : nat) (p : peak) : Prop :=
  pk_index p = (i + 1)%nat /\
  ((0 < nth (i - 1) ps 0 /\ 0 < nth i ps 0 /\ 0 < nth (i + 1) ps 0) -> parabola_fit fs ps i p) /\
  (~ (0 < nth (i - 1) ps 0 /\ 0 < nth i ps 0 /\ 0 < nth (i + 1) ps 0) -> no_fit p).
