(** * Model of src/exoplanet/units.py on the level of objects

    Objects live in a heap and are named by their position; two names for one
    position are aliases. *)
From Coq Require Import Reals List Bool Arith.
From Verif Require Import Num Inst M_units M_tensor.
Import ListNotations.
Open Scope R_scope.

(** what [as_tensor_variable] distinguishes: float64 tensors, other tensors, and
    everything else (numbers, numpy arrays), which cannot carry attributes here *)
Inductive kind := Float64 | OtherTensor | NotTensor.
(** [o_unit]: the attribute __exoplanet_unit__ (units.py:5).  The value of a symbolic
    tensor is its value under some assignment of the variables it is built from. *)
Record obj := { o_kind : kind; o_val : tens; o_unit : option unit_t }.
Definition heap := list obj.
Definition loc := nat.
Definition hset (h : heap) (l : loc) (o : obj) : heap := firstn l h ++ o :: skipn (S l) h.
Definition alloc (h : heap) (o : obj) : heap * loc := (h ++ [o], length h).
(** A backend: the constant tensor used before for this python number, if the backend
    keeps such a table (Theano does for small numbers; PyTensor creates new ones) *)
Definition backend := heap -> obj -> option loc.
Definition fresh_constants : backend := fun _ _ => None.

(** utils.py:18-22 with the default dtype: [tensor.as_tensor_variable] returns tensors
    unchanged, [astype] returns float64 tensors unchanged; a cast makes a new tensor *)
Definition as_tensor (B : backend) (h : heap) (l : loc) (o : obj) : heap * loc :=
  match o_kind o with
  | Float64 => (h, l)
  | OtherTensor => alloc h {| o_kind := Float64; o_val := o_val o; o_unit := None |}
  | NotTensor => match B h o with
                 | Some l' => (h, l')
                 | None => alloc h {| o_kind := Float64; o_val := o_val o; o_unit := None |}
                 end
  end.
(** units.py:26-28 *)
Definition has_unit (o : obj) : bool := match o_unit o with Some _ => true | None => false end.
(** units.py:8-23 *)
Definition with_unit (B : backend) (h : heap) (l : loc) (u : unit_t) : res (heap * loc) :=
  match nth_error h l with
  | None => Err AttrErr
  | Some o => if has_unit o then Err TypeErr                                           (* 19-20 *)
              else let '(h1, l1) := as_tensor B h l o in                               (* 21 *)
                   match nth_error h1 l1 with
                   | None => Err AttrErr
                   | Some o1 => Ok (hset h1 l1 {| o_kind := o_kind o1; o_val := o_val o1; o_unit := Some u |}, l1)   (* 22-23 *)
                   end
  end.
(** [obj * factor]: a new tensor, which has no attributes *)
Definition scaled (x : tens) (f : R) : tens := mkA (ash x) (fun i => fmul (aget x i) (Fin f)).
(** units.py:31-45 *)
Definition to_unit (h : heap) (l : loc) (target : unit_t) : res (heap * loc) :=
  match nth_error h l with
  | None => Err AttrErr
  | Some o => match o_unit o with
              | None => Ok (h, l)                                                      (* 42-43 *)
              | Some base => f <- uto base target ;;                                   (* 44-45 *)
                             Ok (alloc h {| o_kind := Float64; o_val := scaled (o_val o) f; o_unit := None |})
              end
  end.

(** ** histories: calls whose exceptions are caught, and new objects made by the user *)
Inductive call :=
| CNew (k : kind) (v : tens)
| CWith (l : loc) (u : unit_t)
| CHas (l : loc)
| CTo (l : loc) (target : unit_t).
Inductive answer := ALoc (l : loc) | ABool (b : bool) | AErr (e : exn).
Definition step (B : backend) (h : heap) (c : call) : heap * answer :=
  match c with
  | CNew k v => let '(h', l) := alloc h {| o_kind := k; o_val := v; o_unit := None |} in (h', ALoc l)
  | CWith l u => match with_unit B h l u with Ok (h', l') => (h', ALoc l') | Err e => (h, AErr e) end
  | CHas l => match nth_error h l with Some o => (h, ABool (has_unit o)) | None => (h, AErr AttrErr) end
  | CTo l t => match to_unit h l t with Ok (h', l') => (h', ALoc l') | Err e => (h, AErr e) end
  end.
Fixpoint run (B : backend) (h : heap) (cs : list call) : heap * list answer :=
  match cs with
  | [] => (h, [])
  | c :: cs => let '(h1, a) := step B h c in let '(h2, l) := run B h1 cs in (h2, a :: l)
  end.
(** the deprecated keywords of KeplerianOrbit, keplerian.py:99-108: the tag goes on the
    tensor of the caller *)
Definition legacy_units (B : backend) (h : heap) (l : loc) (units : option unit_t) : res (heap * loc) :=
  match units with None => Ok (h, l) | Some u => with_unit B h l u end.
