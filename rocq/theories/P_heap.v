(** * C68: units on the level of objects *)
From Coq Require Import Reals List Bool Arith ZArith.
From Verif Require Import Num Inst M_units M_tensor M_heap Spec_heap Ex_heap L_heap.
Import ListNotations.
Open Scope R_scope.

(** C68: whatever is called, objects keep kind, value and, once set, unit *)
Theorem C68_preserved : forall cs h h' ans, run fresh_constants h cs = (h', ans) -> preserved h h'.
Proof. exact run_preserves. Qed.
Print Assumptions C68_preserved.
(** no tensor is returned by two with_unit calls, and each has the unit of its call at the end *)
Theorem C68_once : forall cs h h' ans, run fresh_constants h cs = (h', ans) ->
  NoDup (map fst (taggings cs ans)) /\ forall l u, In (l, u) (taggings cs ans) -> exists v, at_loc h' l Float64 v (Some u).
Proof. exact tag_once. Qed.
Print Assumptions C68_once.
(** a second with_unit raises TypeError and changes nothing *)
Theorem C68_again : forall B h l k v w u, at_loc h l k v (Some w) -> with_unit B h l u = Err TypeErr /\ step B h (CWith l u) = (h, AErr TypeErr).
Proof. exact with_unit_again. Qed.
Print Assumptions C68_again.
(** with_unit tags a float64 tensor itself, and a new tensor otherwise; nothing else changes *)
Theorem C68_with_unit : forall h l k v u, at_loc h l k v None -> exists h' l',
  with_unit fresh_constants h l u = Ok (h', l') /\ at_loc h' l' Float64 v (Some u) /\ same_but h h' l' /\ l' = match k with Float64 => l | _ => length h end.
Proof. exact with_unit_law. Qed.
Print Assumptions C68_with_unit.
(** to_unit returns its untagged argument itself, else a new untagged tensor *)
Theorem C68_to_unit : forall h l k v t,
  (at_loc h l k v None -> to_unit h l t = Ok (h, l)) /\
  (forall w, at_loc h l k v (Some w) ->
     (same_dim w t -> exists h', to_unit h l t = Ok (h', length h) /\ same_but h h' (length h) /\
        at_loc h' (length h) Float64 (scaled v (uscale w / uscale t)) None) /\
     (~ same_dim w t -> to_unit h l t = Err UnitErr)).
Proof. exact to_unit_law. Qed.
Print Assumptions C68_to_unit.
(** there and back again is the identity *)
Theorem C68_round_trip : forall h l k v w t, at_loc h l k v (Some w) -> same_dim w t -> uscale w <> 0 -> uscale t <> 0 -> finite v ->
  exists h1 l1 h2 l2 h3 l3 v', to_unit h l t = Ok (h1, l1) /\ with_unit fresh_constants h1 l1 t = Ok (h2, l2) /\ to_unit h2 l2 w = Ok (h3, l3) /\
    at_loc h3 l3 Float64 v' None /\ ash v' = ash v /\ forall i, aget v' i = aget v i.
Proof. exact round_trip. Qed.
Print Assumptions C68_round_trip.
(** a backend that reuses constant tensors breaks this: units of other users change *)
Theorem C68_table_refuted : ~ (forall B cs h h' ans, run B h cs = (h', ans) -> preserved h h').
Proof. exact table_breaks. Qed.
Print Assumptions C68_table_refuted.
(** the deprecated unit keywords tag the tensor of the caller: a tensor cannot be given
    to two constructor calls with them *)
Theorem C68_legacy_refuted : ~ (forall h l k v u h1 l1, at_loc h l k v None -> legacy_units fresh_constants h l (Some u) = Ok (h1, l1) ->
  exists h2 l2, legacy_units fresh_constants h1 l (Some u) = Ok (h2, l2)).
Proof. exact legacy_reuse. Qed.
Print Assumptions C68_legacy_refuted.
Example C68_case : snd (run fresh_constants [] ex_history) = [ALoc 0%nat; ALoc 1%nat; AErr TypeErr; ALoc 2%nat; ALoc 3%nat; ABool false] /\
  taggings ex_history (snd (run fresh_constants [] ex_history)) = [(1%nat, ex_kg); (2%nat, ex_g)] /\ same_dim ex_kg ex_g /\ finite ex_one.
Proof. exact (conj eq_refl (conj eq_refl (conj eq_refl (fun i => ex_intro _ 1 eq_refl)))). Qed.
