(** * Array operations of numpy / PyTensor used by in_transit, the light curves
    and TTVOrbit, and KeplerianOrbit.in_transit itself *)
From Coq Require Import Reals List Bool Arith.
From Verif Require Import Num CoreOps Inst M_units M_kepler.
Import ListNotations.
Open Scope R_scope.

(** the index whose last coordinate is j and whose others are those of i *)
Definition cons_ix (j : nat) (i : idx) : idx := fun k => match k with O => j | S k' => i k' end.
Definition ix0 : idx := fun _ => 0%nat.
(** all indices of an array of the given shape *)
Fixpoint all_ix (s : shape) : list idx :=
  match s with
  | [] => [ix0]
  | d :: s' => flat_map (fun i => map (fun j => cons_ix j i) (seq 0 d)) (all_ix s')
  end.

(** [any(m, axis=-1)] *)
Definition tany_last (m : btens) : btens :=
  match ash m with
  | Ok (d :: s) => mkA (Ok s) (fun i => existsb (fun j => aget m (cons_ix j i)) (seq 0 d))
  | Ok [] => mkA (Err ValueError) (aget m)
  | Err e => mkA (Err e) (aget m)
  end.
(** [all(m)] *)
Definition tall (m : btens) : res bool :=
  rmap (fun s => forallb (aget m) (all_ix s)) (ash m).
(** [eq(x, 0)] *)
Definition feq0 (a : fl) : bool := match a with Fin x => Reqb x 0 | _ => false end.
Definition teq0 (x : tens) : btens := amap feq0 x.

(** [t.shape[0]]: the length of the FIRST axis *)
Definition shape0 {A} (t : arr A) : res nat :=
  match ash t with
  | Ok [] => Err IndexErr
  | Ok s => Ok (last s 0%nat)
  | Err e => Err e
  end.

(** [arange(n)[mask]]: the mask must be a vector of length n *)
Definition arange_mask (n : nat) (m : btens) : res (list nat) :=
  match ash m with
  | Ok [d] => if Nat.eqb d n then Ok (filter (fun i => aget m (cons_ix i ix0)) (seq 0 n)) else Err IndexErr
  | Ok _ => Err IndexErr
  | Err e => Err e
  end.

(** The number of axes of the mask is known, and checked, when the expression is
    built, whether or not its value will be needed. *)
Definition mask_axes (m : btens) : res unit :=
  match ash m with
  | Ok [_] => Ok tt
  | Ok _ => Err IndexErr
  | Err _ => Ok tt
  end.

(** keplerian.py:708-777.  [warp] is self._warp_times; [contact_points] is the
    external operation.  PyTensor's [ifelse] evaluates only the branch taken. *)
Definition kep_in_transit (o : orbit tens) (warp : bool -> tens -> tens)
    (contact_points : tens -> tens -> tens -> tens -> tens -> tens -> tens -> tens * tens * tens)
    (t r : tens) (texp : option tens) (light_delay : bool) : res (list nat) :=
  if light_delay then Err NotImpl else                             (* 720-723 *)
  let '(m, flag) := transit_mask o warp contact_points t r texp in
  n <- shape0 t ;;
  ok <- tall (teq0 flag) ;;                                        (* 772 *)
  if ok then arange_mask n (tany_last m)                           (* 769, 773 *)
  else _ <- mask_axes (tany_last m) ;; Ok (seq 0 n).               (* 774 *)

(** elementwise lift of a scalar contact-point solver *)
Definition lift_cp (f : fl -> fl -> fl -> fl -> fl -> fl -> fl -> fl * fl * fl)
    (a e cw sw ci si L : tens) : tens * tens * tens :=
  let sh := bcr (ash a) (bcr (ash e) (bcr (ash cw) (bcr (ash sw) (bcr (ash ci) (bcr (ash si) (ash L)))))) in
  let at' i := f (aget a i) (aget e i) (aget cw i) (aget sw i) (aget ci i) (aget si i) (aget L i) in
  (mkA sh (fun i => fst (fst (at' i))), mkA sh (fun i => snd (fst (at' i))), mkA sh (fun i => snd (at' i))).
