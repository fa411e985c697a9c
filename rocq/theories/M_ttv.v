(** * Model of src/exoplanet/orbits/ttv.py

    Vectors with one entry per transit are lists.  PyTensor builds expressions
    and fails when they are evaluated; here an error is reported where the
    expression is built.  TTVOrbit is called with keyword arguments only;
    int64 overflow of the index sums is not modelled. *)
From Coq Require Import Reals List Bool Arith ZArith String.
From Verif Require Import Num CoreOps Inst M_units M_kepler M_kwargs M_tensor.
Import ListNotations.
Open Scope R_scope.

(** ** numpy / PyTensor operations on vectors *)

(** elementwise operation with broadcasting of vectors of length one *)
Definition lmap2 {A C D} (f : A -> C -> D) (a : list A) (b : list C) : res (list D) :=
  if Nat.eqb (List.length a) (List.length b) then Ok (map (fun p => f (fst p) (snd p)) (combine a b)) else
  match a, b with
  | [x], _ => Ok (map (f x) b)
  | _, [y] => Ok (map (fun x => f x y) a)
  | _, _ => Err ShapeErr
  end.
Fixpoint rlist {A} (l : list (res A)) : res (list A) :=
  match l with
  | [] => Ok []
  | x :: l => a <- x ;; r <- rlist l ;; Ok (a :: r)
  end.
(** [[f(i, x) for i, x in enumerate(l)]] *)
Definition imap {A C} (f : nat -> A -> res C) (l : list A) : res (list C) :=
  rlist (map (fun p => f (fst p) (snd p)) (combine (seq 0 (List.length l)) l)).
(** [l[i]] of a python list *)
Definition lix {A} (l : list A) (i : nat) : res A :=
  match nth_error l i with Some v => Ok v | None => Err IndexErr end.
(** [a[i]] of a vector; indexing a scalar is an error.  Simplified: arrays with
    more than one axis are rejected. *)
Definition tix (a : tens) (i : nat) : res fl :=
  match ash a with
  | Ok [d] => if Nat.ltb i d then Ok (aget a (fun _ => i)) else Err IndexErr
  | Ok _ => Err IndexErr
  | Err e => Err e
  end.
(** [arange(z)] of an integer *)
Definition zarange (z : Z) : list Z := map Z.of_nat (seq 0 (Z.to_nat z)).
(** [inds.max()] *)
Definition zmax (l : list Z) : res Z :=
  match l with [] => Err ValueError | z :: l => Ok (fold_left Z.max l z) end.
(** [stack(l)] of scalars *)
Definition tstack (l : list fl) : res tens :=
  match l with
  | [] => Err ValueError
  | _ => Ok (mkA (Ok [List.length l]) (fun i => nth (if Nat.eqb (List.length l) 1 then O else i O) l NaN))
  end.
(** position [z] of a vector of length [len], negative positions count from the end *)
Definition pyix (len : nat) (z : Z) : res nat :=
  if ((0 <=? z) && (z <? Z.of_nat len))%Z then Ok (Z.to_nat z)
  else if ((- Z.of_nat len <=? z) && (z <? 0))%Z then Ok (Z.to_nat (z + Z.of_nat len))
  else Err IndexErr.
Fixpoint set_nth {A} (l : list A) (i : nat) (v : A) : list A :=
  match l, i with
  | [], _ => []
  | _ :: l, O => v :: l
  | x :: l, S i => x :: set_nth l i v
  end.
(** [set_subtensor(expect[inds], vals)]; of repeated positions the last wins *)
Fixpoint set_all {A} (l : list A) (ps : list (Z * A)) : res (list A) :=
  match ps with
  | [] => Ok l
  | (z, v) :: ps => i <- pyix (List.length l) z ;; set_all (set_nth l i v) ps
  end.
Definition set_subtensor {A} (expect : list A) (inds : list Z) (vals : list A) : res (list A) :=
  match vals with
  | [v] => set_all expect (map (fun z => (z, v)) inds)
  | _ => if Nat.eqb (List.length inds) (List.length vals) then set_all expect (combine inds vals) else Err ShapeErr
  end.
(** numpy's sorting order: NaN comes last *)
Definition flt_sort (a b : fl) : bool :=
  match a, b with NaN, _ => false | _, NaN => true | _, _ => flt a b end.
(** [searchsorted(edges, v)]: binary search for the first position whose entry
    is not below v.  numpy may start from the bounds of the previous key, which
    makes no difference for sorted edges. *)
Fixpoint bsearch (fuel : nat) (e : nat -> fl) (v : fl) (lo hi : nat) : nat :=
  match fuel with
  | O => lo
  | S fuel =>
      if Nat.ltb lo hi then
        let mid := (lo + (hi - lo) / 2)%nat in
        if flt_sort (e mid) v then bsearch fuel e v (S mid) hi else bsearch fuel e v lo mid
      else lo
  end.
Definition searchsorted (edges : list fl) (v : fl) : nat :=
  bsearch (List.length edges) (fun i => nth i edges NaN) v 0 (List.length edges).

(** ** Linear regression *)
Section G.
Context {T B : Type} {N : Num T B}.
Local Open Scope num_scope.

Definition nsum (l : list T) : T := fold_right nadd (#0) l.

(** ttv.py:109-122: slope, intercept and residuals *)
Definition ttv_fit (inds : list Z) (times : list T) : res (T * T * list T) :=
  let x := map (fun z => nlit (IZR z)) inds in
  let n := nlit (INR (List.length times)) in                       (* 110 *)
  let sumx := nsum x in
  let sumx2 := nsum (map (fun v => v ^ 2) x) in
  let sumy := nsum times in
  xy <- lmap2 nmul x times ;;
  let sumxy := nsum xy in                                          (* 114 *)
  let denom := n * sumx2 - sumx ^ 2 in
  let slope := (n * sumxy - sumx * sumy) / denom in
  let intercept := (sumx2 * sumy - sumx * sumxy) / denom in
  let expect := map (fun v => intercept + v * slope) x in          (* 118 *)
  r <- lmap2 nsub times expect ;;                                  (* 122 *)
  Ok (slope, intercept, r).

(** ttv.py:147 *)
Definition ttv_labelled (t0 period : T) (inds : list Z) (ttv : list T) : res (list T) :=
  lmap2 nadd (map (fun z => t0 + period * nlit (IZR z)) inds) ttv.

(** ttv.py:154-157 *)
Definition ttv_all (t0 period : T) (inds : list Z) (times : list T) : res (list T) :=
  m <- zmax inds ;;
  set_subtensor (map (fun z => t0 + period * nlit (IZR z)) (zarange (m + 1))) inds times.

(** [0.5 * (tts[1:] + tts[:-1])] *)
Fixpoint mids (l : list T) : list T :=
  match l with
  | a :: (b :: _) as r => (#0.5 * (b + a)) :: mids r
  | _ => []
  end.
(** ttv.py:160-173: bin edges and bin values; [tts[0]] of an empty vector fails *)
Definition ttv_bins (ttv_period : T) (tts : list T) : res (list T * list T) :=
  match tts with
  | [] => Err IndexErr
  | a :: _ =>
      let z := last tts a in
      Ok ((a - #0.5 * ttv_period) :: mids tts ++ [z + #0.5 * ttv_period], a :: tts ++ [z])
  end.
End G.

(** ** TTVOrbit *)

(** ttv.py:71-74: the popped keywords and the remaining ones *)
Record targs := {
  ta_ttvs : option (list (list fl)); ta_times : option (list (list fl));
  ta_inds : option (list (list Z)); ta_kw : list (string * kval tens) }.

Record ttvorbit := {
  tt_orbit : orbit tens;             (* the attributes of KeplerianOrbit *)
  tt_ttvs : list (list fl); tt_inds : list (list Z); tt_times : list (list fl);
  tt_period : tens;                  (* ttv_period *)
  tt_all : list (list fl);           (* all_transit_times *)
  tt_bins : list (list fl * list fl) (* _bin_edges and _bin_values *) }.

Definition slope_of {A C D} (p : A * C * D) : A := fst (fst p).
Definition intercept_of {A C D} (p : A * C * D) : C := snd (fst p).

(** ttv.py:99-123 for one planet *)
Definition fit_planet (inds : option (list (list Z))) (i : nat) (times : list fl) : res (list Z * (fl * fl * list fl)) :=
  x <- (match inds with
        | None => Ok (zarange (Z.of_nat (List.length times)))
        | Some l => lix l i
        end) ;;
  f <- ttv_fit x times ;; Ok (x, f).

(** ttv.py:133-140; [kwargs[name] = v] puts v in front *)
Definition ttv_kwargs (ttv_period t0 : tens) (kw : list (string * kval tens)) : res (list (string * kval tens)) :=
  let kw := ("t0"%string, KNum (plain t0)) :: kw in                (* 125 *)
  match lookup "period" kw with
  | Some _ => Ok kw
  | None =>
      match lookup "delta_log_period" kw with
      | Some (KNum d) => Ok (("period"%string, KNum (plain (nexp (nlog ttv_period + qv d)%num))) :: kw)
      | Some _ => Err TypeErr
      | None => Ok (("period"%string, KNum (plain ttv_period)) :: kw)
      end
  end.

Section C.
Variable k : consts.

(** ttv.py:151-173 *)
Definition ttv_finish (o : orbit tens) (ttvs : list (list fl)) (inds : list (list Z)) (times : list (list fl)) (P : tens) : res ttvorbit :=
  all <- imap (fun i x => t0 <- tix (o_t0 o) i ;; p <- tix (o_period o) i ;; tt <- lix times i ;; ttv_all t0 p x tt) inds ;;
  bins <- imap (fun i tts => p <- tix P i ;; ttv_bins p tts) all ;;
  Ok {| tt_orbit := o; tt_ttvs := ttvs; tt_inds := inds; tt_times := times; tt_period := P; tt_all := all; tt_bins := bins |}.

(** ttv.py:71-173 *)
Definition ttv_init (x : targs) : res ttvorbit :=
  match ta_ttvs x, ta_times x with
  | None, None => Err ValueError                                   (* 75-78 *)
  | Some ttvs, _ =>                                                (* 79-89, 144-149 *)
      let inds := match ta_inds x with
                  | None => map (fun ttv => zarange (Z.of_nat (List.length ttv))) ttvs
                  | Some l => l
                  end in
      o <- kep_call k (ta_kw x) ;;                                 (* 142 *)
      times <- imap (fun i ttv => t0 <- tix (o_t0 o) i ;; p <- tix (o_period o) i ;; z <- lix inds i ;;
                                  ttv_labelled t0 p z ttv) ttvs ;;
      ttv_finish o ttvs inds times (o_period o)
  | None, Some times =>                                            (* 91-140 *)
      fits <- imap (fit_planet (ta_inds x)) times ;;
      t0 <- tstack (map (fun f => intercept_of (snd f)) fits) ;;   (* 125 *)
      P <- tstack (map (fun f => slope_of (snd f)) fits) ;;        (* 132 *)
      kw <- ttv_kwargs P t0 (ta_kw x) ;;
      o <- kep_call k kw ;;                                        (* 142 *)
      ttv_finish o (map (fun f => snd (snd f)) fits) (map fst fits) times P
  end.

(** keplerian.py:779-804 as inherited: [type(self)(...)] is TTVOrbit, called
    without ttvs and without transit_times *)
Definition ttv_flip (o : ttvorbit) (r_planet : tens) : res ttvorbit :=
  ttv_init {| ta_ttvs := None; ta_times := None; ta_inds := None;
              ta_kw := [("period", KNum (plain (o_period (tt_orbit o)))); ("r_star", KNum (plain r_planet))]%string |}.
End C.

(** ttv.py:175-180 *)
Definition ttv_model_dt (o : ttvorbit) (t : tens) : tens :=
  let n := List.length (tt_ttvs o) in
  mkA (if Nat.eqb n 0 then Err ValueError else rmap (cons n) (ash t))
      (fun i => let '(e, v) := nth (if Nat.eqb n 1 then O else i O) (tt_bins o) ([], []) in
                nth (searchsorted e (aget t (fun d => i (S d)))) v NaN).

(** ttv.py:182-187 *)
Definition ttv_warp (o : ttvorbit) (pad : bool) (t : tens) : tens :=
  ((if pad then npadr t else t) - ttv_model_dt o t)%num.

(** ** compute_expected_transit_times, ttv.py:10-32

    Finite numbers and non-zero periods only; [np.atleast_1d] is applied by the
    caller of the model. *)
Definition expected_times (min_time max_time period t0 : R) : list R :=
  let min_ind := Zfloor ((min_time - t0) / period) in
  let max_ind := Zceil ((max_time - t0) / period) in
  filter (fun t => Rleb min_time t && Rleb t max_time)
    (map (fun i => t0 + period * IZR (min_ind + Z.of_nat i)) (seq 0 (Z.to_nat (max_ind - min_ind)))).
Definition compute_expected_transit_times (min_time max_time : R) (period t0 : list R) : list (list R) :=
  map (fun p => expected_times min_time max_time (fst p) (snd p)) (combine period t0).
