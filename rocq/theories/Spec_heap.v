(** * Specification vocabulary for histories of unit calls *)
From Coq Require Import Reals List Bool Arith.
From Verif Require Import Num Inst M_units M_tensor M_heap.
Import ListNotations.
Open Scope R_scope.

Definition at_loc (h : heap) (l : loc) (k : kind) (v : tens) (u : option unit_t) : Prop :=
  nth_error h l = Some {| o_kind := k; o_val := v; o_unit := u |}.
(** every object of h is in h' with the same kind and value; a unit is kept *)
Definition preserved (h h' : heap) : Prop := forall l k v u, at_loc h l k v u ->
  exists u', at_loc h' l k v u' /\ (u <> None -> u' = u).
(** the two heaps agree, except possibly at one place *)
Definition same_but (h h' : heap) (l : loc) : Prop := forall m, m <> l -> nth_error h' m = nth_error h m.
(** the tensors that with_unit calls of the history returned, with the units given *)
Fixpoint taggings (cs : list call) (ans : list answer) : list (loc * unit_t) :=
  match cs, ans with
  | CWith _ u :: cs, ALoc l :: ans => (l, u) :: taggings cs ans
  | _ :: cs, _ :: ans => taggings cs ans
  | _, _ => []
  end.
(** objects the user makes have no unit, and only float64 tensors can have one *)
Definition tags_ok (h : heap) : Prop := forall l k v u, at_loc h l k v (Some u) -> k = Float64.
Definition same_dim (u w : unit_t) : Prop := udim u = udim w.
Definition finite (x : tens) : Prop := forall i, exists r, aget x i = Fin r.
