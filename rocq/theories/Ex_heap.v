(** * Concrete histories *)
From Coq Require Import Reals List Bool Arith ZArith.
From Verif Require Import Num Inst M_units M_tensor M_heap Spec_heap.
Import ListNotations.
Open Scope R_scope.

(** a backend whose table maps every number to the object at position 1 *)
Definition ex_table : backend := fun h o => match nth_error h 1 with Some _ => Some 1%nat | None => None end.
Definition ex_one : tens := mkA (Ok []) (fun _ => Fin 1).
Definition ex_kg : unit_t := {| udim := (1, 0, 0)%Z; uscale := 1 |}.
Definition ex_g : unit_t := {| udim := (1, 0, 0)%Z; uscale := 1 / 1000 |}.
(** a number is tagged (giving tensor 1), the tag is refused on the tensor, the number
    is tagged again (tensor 2), tensor 1 is converted (tensor 3) *)
Definition ex_history : list call := [CNew NotTensor ex_one; CWith 0%nat ex_kg; CWith 1%nat ex_g; CWith 0%nat ex_g; CTo 1%nat ex_g; CHas 3%nat].
