(** * Model of src/exoplanet/light_curves/limb_dark.py *)
From Coq Require Import Reals List Bool Arith ZArith String.
From Verif Require Import Num CoreOps Inst CoreFlux M_units M_kepler M_tensor M_simple M_ttv.
Import ListNotations.
Local Notation length := List.length.
Open Scope R_scope.

(** ** array operations of numpy / PyTensor *)

(** number of elements *)
Definition prod (s : shape) : nat := fold_right Nat.mul 1%nat s.
(** row-major position of an index, and the index at a position *)
Fixpoint lin (s : shape) (i : idx) : nat :=
  match s with
  | [] => 0
  | d :: s' => (if Nat.eqb d 1 then 0 else i O) + d * lin s' (fun k => i (S k))
  end%nat.
Fixpoint unlin (s : shape) (l : nat) : idx :=
  match s with
  | [] => ix0
  | d :: s' => cons_ix (l mod d)%nat (unlin s' (l / d)%nat)
  end.
(** [reshape(x, shape)] *)
Definition areshape {A} (sh : res shape) (x : arr A) : arr A :=
  match ash x, sh with
  | Ok s, Ok s' => mkA (if Nat.eqb (prod s) (prod s') then Ok s' else Err ShapeErr) (fun i => aget x (unlin s (lin s' i)))
  | Err e, _ => mkA (Err e) (aget x)
  | _, Err e => mkA (Err e) (aget x)
  end.
(** [shape_padleft(x, k)]: k new first axes of length one *)
Definition apadl {A} (k : nat) (x : arr A) : arr A := mkA (rmap (fun s => s ++ repeat 1%nat k) (ash x)) (aget x).
(** [x.ndim]; an array whose shape is an error has none *)
Definition andim {A} (x : arr A) : nat := match ash x with Ok s => length s | Err _ => 0%nat end.
(** i with the coordinate of axis ax replaced by q *)
Definition set_ix (ax q : nat) (i : idx) : idx := fun k => if Nat.eqb k ax then q else i k.
(** the coordinate of an axis of length d *)
Definition coord (d : nat) (q : nat) : nat := if Nat.eqb d 1 then O else q.
(** [x[inds]]: rows of the first axis *)
Definition agather {A} (x : arr A) (inds : list nat) : res (arr A) :=
  match ash x with
  | Err e => Err e
  | Ok [] => Err IndexErr
  | Ok s =>
      let ax := (length s - 1)%nat in
      if forallb (fun q => Nat.ltb q (last s O)) inds
      then Ok (mkA (Ok (removelast s ++ [length inds]))
                   (fun i => aget x (set_ix ax (nth (coord (length inds) (i ax)) inds O) i)))
      else Err IndexErr
  end.
(** position of q in a list *)
Fixpoint pos_in (q : nat) (l : list nat) : option nat :=
  match l with
  | [] => None
  | a :: l => if Nat.eqb a q then Some O else option_map S (pos_in q l)
  end.
(** [set_subtensor(x[inds], y)].  Simplified: y must have exactly the shape of
    x[inds], and the indices are distinct (they come from [arange(n)[mask]]). *)
Definition aset_rows {A} (x : arr A) (inds : list nat) (y : arr A) : arr A :=
  match ash x, ash y with
  | Err e, _ => mkA (Err e) (aget x)
  | _, Err e => mkA (Err e) (aget x)
  | Ok [], _ => mkA (Err IndexErr) (aget x)
  | Ok s, Ok s' =>
      let ax := (length s - 1)%nat in
      mkA (if forallb (fun q => Nat.ltb q (last s O)) inds
           then (if list_eq_dec Nat.eq_dec s' (removelast s ++ [length inds]) then Ok s else Err ShapeErr)
           else Err IndexErr)
          (fun i => match pos_in (coord (last s O) (i ax)) inds with
                    | None => aget x i
                    | Some p => aget y (set_ix ax p i)
                    end)
  end.
(** [sum(x, axis)] over the last but one axis *)
Definition fsum {NF : Num fl bool} (l : list fl) : fl := fold_left nadd l (Fin 0).
Definition asum1 {NF : Num fl bool} (x : tens) : tens :=
  match ash x with
  | Ok (n :: d :: s) => mkA (Ok (n :: s)) (fun i => fsum (map (fun k => aget x (cons_ix (i O) (cons_ix k (fun q => i (S q))))) (seq 0 d)))
  | Ok _ => mkA (Err ValueError) (aget x)
  | Err e => mkA (Err e) (aget x)
  end.
(** a numpy vector of known numbers *)
Definition avec {NF : Num fl bool} (l : list R) : tens := mkA (Ok [length l]) (fun i => nlit (nth (coord (length l) (i O)) l 0)).

(** ** limb darkening *)
Section G.
Context {T B : Type} {N : Num T B}.
Local Open Scope num_scope.

(** limb_dark.py:11-18.  The stacked vector is a triple; u1 and u2 are scalars. *)
Definition get_cl (u1 u2 : T) : T * T * T :=
  let c0 := #1 - u1 - #1.5 * u2 in                                 (* 14 *)
  let c1 := u1 + #2 * u2 in                                        (* 15 *)
  let c2 := #(-0.25) * u2 in                                       (* 16 *)
  let norm := #PI * (c0 + c1 / #1.5) in                            (* 17 *)
  (c0 / norm, c1 / norm, c2 / norm).                               (* 18 *)

(** limb_dark.py:87-97, before the results are reshaped to b.shape *)
Definition approx_ror (u1 u2 delta b : T) : T * T :=
  let f0 := #1 - #2 * u1 / #6 - #2 * u2 / #12 in                   (* 89 *)
  let arg := #1 - nsqrt (#1 - b ^ 2) in                            (* 90 *)
  let f := #1 - u1 * arg - u2 * arg ^ 2 in                         (* 91 *)
  let factor := f0 / f in                                          (* 92 *)
  let ror := nsqrt (delta * factor) in                             (* 93 *)
  (ror, #0.5 * factor / ror).                                      (* 96 *)
End G.

(** The arithmetic of numbers and arrays and the solution vector are parameters:
    [NumF], [NumT] and [exact_flux], filled in by Coq where nothing else is
    given, and the machine's arithmetic in Spec_float5.v. *)
Section Flux.
Context {NF : Num fl bool} {NT : Num tens btens} {FO : FluxOp}.

(** limb_dark.py:21-24, one element: dot product with the solution vector *)
Definition fquad (c : fl * fl * fl) (b r : fl) : fl :=
  let '(c0, c1, c2) := c in
  nsub (nadd (nadd (nmul (flux_op basis0 b r) c0) (nmul (flux_op basis1 b r) c1)) (nmul (flux_op basis2 b r) c2)) (nlit 1).
(** limb_dark.py:21-24.  b and r have the same shape. *)
Definition quad_light_curve (c : fl * fl * fl) (b r : tens) : tens := amap2 (fquad c) b r.

(** limb_dark.py:41-68, the attributes *)
Record limbdark := { ld_u1 : fl; ld_u2 : fl; ld_c : fl * fl * fl }.
(** limb_dark.py:66-68, u1 and u2 given.  Simplified: scalars. *)
Definition ld_init {NF : Num fl bool} (u1 u2 : fl) : limbdark := {| ld_u1 := u1; ld_u2 := u2; ld_c := get_cl u1 u2 |}.
(** limb_dark.py:43-64, 68: a vector of coefficients.  PyTensor refuses
    [u1.shape[0]] for a scalar. *)
Definition ld_init_vector {NF : Num fl bool} (u : tens) : res limbdark :=
  match ash u with
  | Ok [] => Err IndexErr
  | Ok [2%nat] => Ok (ld_init (aget u (cons_ix 0%nat ix0)) (aget u (cons_ix 1%nat ix0)))
  | Ok _ => Err AssertErr
  | Err e => Err e
  end.

(** limb_dark.py:70-97 *)
Definition get_ror_from_approx_transit_depth {NT : Num tens btens} (l : limbdark) (delta b : tens) (jac : bool) : tens * option tens :=
  let '(ror, d) := approx_ror (alit (ld_u1 l)) (alit (ld_u2 l)) delta b in
  (areshape (ash b) ror, if jac then Some (areshape (ash b) d) else None).

(** limb_dark.py:234-252 *)
Definition compute_light_curve (l : limbdark) (b r : tens) (los : option tens) : tens :=
  let los := match los with None => amap (fun _ => Fin 1) b | Some z => z end in   (* 249-250 *)
  let lc := quad_light_curve (ld_c l) b r in                       (* 251 *)
  nsw (nlt (nlit 0) los) lc (nzl lc).                              (* 252 *)
End Flux.

(** ** exposure time integration: limb_dark.py:181-197 *)

(** [np.linspace(a, b, n)], n >= 1 *)
Definition linspace (a b : R) (n : nat) : list R :=
  map (fun i => if Nat.eqb n 1 then a else a + INR i * ((b - a) / INR (n - 1))) (seq 0 n).
(** [l[1:-1:2]] *)
Definition inner2 (l : list R) : list R :=
  map (fun i => nth i l 0) (filter (fun i => Nat.odd i && Nat.ltb i (length l - 1)) (seq 0 (length l))).
(** limb_dark.py:181-183: the odd number of evaluations; [np.ones] of a negative
    length is a ValueError *)
Definition odd_number (oversample : Z) : res nat :=
  let z := (oversample + (1 - oversample mod 2))%Z in
  if (z <? 0)%Z then Err ValueError else Ok (Z.to_nat z).
Definition normalised (l : list R) : list R := let s := fold_right Rplus 0 l in map (fun w => w / s) l.
(** nodes in units of the exposure time, and weights *)
Definition stencil (oversample order : Z) : res (list R * list R) :=
  K <- odd_number oversample ;;                                    (* 181-183 *)
  let inside i := Nat.leb 1 i && Nat.ltb i (K - 1) in
  (if (order =? 0)%Z then
     Ok (inner2 (linspace (-0.5) 0.5 (2 * K + 1)), normalised (repeat 1 K))                     (* 187 *)
   else if (order =? 1)%Z then
     Ok (linspace (-0.5) 0.5 K, normalised (map (fun i => if inside i then 2 else 1) (seq 0 K)))  (* 189-190 *)
   else if (order =? 2)%Z then
     Ok (linspace (-0.5) 0.5 K,
         normalised (map (fun i => if inside i then (if Nat.odd i then 4 else 2) else 1) (seq 0 K)))   (* 192-194 *)
   else Err ValueError).                                           (* 196 *)

(** ** the orbit: an object with these two methods and r_star *)
Record orbit_api := {
  oa_pos : tens -> bool -> res (tens * tens * tens);               (* get_relative_position(t, light_delay) *)
  oa_in_transit : tens -> tens -> option tens -> bool -> res (list nat);   (* in_transit(t, r, texp, light_delay) *)
  oa_r_star : tens
}.
(** keplerian.py:518-542, 708-777 *)
Definition kep_api (k : consts) (cp : tens -> tens -> tens -> tens -> tens -> tens -> tens -> tens * tens * tens) (o : orbit tens) : orbit_api :=
  {| oa_pos := fun t ld => Ok (get_relative_position k o (kep_warp o) t None ld);
     oa_in_transit := kep_in_transit o (kep_warp o) cp;
     oa_r_star := o_r_star o |}.
(** ttv.py inherits both methods *)
Definition ttv_api (k : consts) (cp : tens -> tens -> tens -> tens -> tens -> tens -> tens -> tens * tens * tens) (o : ttvorbit) : orbit_api :=
  {| oa_pos := fun t ld => Ok (get_relative_position k (tt_orbit o) (ttv_warp o) t None ld);
     oa_in_transit := kep_in_transit (tt_orbit o) (ttv_warp o) cp;
     oa_r_star := o_r_star (tt_orbit o) |}.
(** simple.py:45-66, 77-103 *)
Definition simple_api {NT : Num tens btens} (s : simple tens) : orbit_api :=
  {| oa_pos := simple_relative_position s;
     oa_in_transit := fun t r texp ld => simple_in_transit s t (Some r) texp ld;
     oa_r_star := s_r_star s |}.

(** limb_dark.py:99-232.  An error inside a tensor shape is an error of the
    call. *)
Section LC.
Context {NF : Num fl bool} {NT : Num tens btens} {FO : FluxOp}.
Variable l : limbdark.
Variable A : orbit_api.

(** 209-222: the flux on the grid of times *)
Definition grid_flux (r tgrid : tens) (light_delay : bool) : res tens :=
  let rgrid := nadd (apadl (andim tgrid) r) (apadr (nzl tgrid)) in                (* 175-177, 209-211 *)
  coords <- oa_pos A tgrid light_delay ;;                                         (* 215 *)
  let '(x, y, z) := coords in
  let b := nsqrt (x ^ 2 + y ^ 2)%num in                                           (* 216 *)
  let b := areshape (ash rgrid) b in                                              (* 217 *)
  let los := areshape (ash rgrid) z in                                            (* 218 *)
  Ok (compute_light_curve l (b / oa_r_star A)%num (rgrid / oa_r_star A)%num (Some (los / oa_r_star A)%num)).   (* 220-222 *)

Definition get_light_curve_checked (r t : tens) (texp : option tens) (oversample order : Z) (use_in_transit light_delay : bool) : res tens :=
  let r := areshape (rmap (fun s => [prod s]) (ash r)) r in                       (* 160 *)
  let ndim := andim t in
  inds <- (if use_in_transit then rmap Some (oa_in_transit A t r texp light_delay) else Ok None) ;;   (* 169 *)
  let model := nadd (apadl ndim (nzl r)) (apadr (nzl t)) in                       (* 166-168 *)
  t <- (match inds with Some i => agather t i | None => Ok t end) ;;              (* 170 *)
  lc <- (match texp with
         | None => grid_flux r t light_delay                                      (* 174 *)
         | Some e =>
             nw <- stencil oversample order ;;                                    (* 181-197 *)
             let (nodes, weights) := nw in
             e <- (if Nat.eqb (andim e) 0 then Ok e                               (* 199-200 *)
                   else match inds with
                        | Some i => rmap apadr (agather e i)                      (* 203 *)
                        | None => Ok (apadr e)                                    (* 205 *)
                        end) ;;
             let dt := nmul e (avec nodes) in
             let tgrid := nadd (apadr t) dt in                                    (* 206 *)
             lc <- grid_flux r tgrid light_delay ;;
             let w := apadr (apadl ndim (avec weights)) in                        (* 225 *)
             Ok (asum1 (nmul w lc))                                               (* 226 *)
         end) ;;
  let out := match inds with Some i => aset_rows model i lc | None => lc end in   (* 228-232 *)
  _ <- ash out ;; Ok out.
End LC.

(** limb_dark.py:148-153: the missing argument the error message names *)
Definition missing_argument (orbit : option orbit_api) (r t : option tens) : option string :=
  match orbit, r, t with
  | None, _, _ => Some "orbit"%string
  | Some _, None, _ => Some "r"%string
  | Some _, Some _, None => Some "t"%string
  | Some _, Some _, Some _ => None
  end.

Definition get_light_curve {NF : Num fl bool} {NT : Num tens btens} {FO : FluxOp} (l : limbdark) (orbit : option orbit_api) (r t texp : option tens) (oversample order : Z)
    (use_in_transit : option bool) (light_delay : bool) : res tens :=
  match orbit, r, t with
  | Some A, Some r, Some t =>
      let use := match use_in_transit with None => negb light_delay | Some u => u end in   (* 155-157 *)
      get_light_curve_checked l A r t texp oversample order use light_delay
  | _, _, _ => Err ValueError                                                     (* 148-153 *)
  end.
