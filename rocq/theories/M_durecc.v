(** * Model of src/exoplanet/orbits/dur_to_ecc.py:18-110

    Scalars per planet are finite numbers.  The user's [func] on the orbit built from an
    eccentricity vector is the argument [logprob]; the named variables of the submodels
    (the loop of lines 102-110) are in M_durvars.v. *)
From Coq Require Import Reals List Bool Arith String.
From Verif Require Import Num Inst M_units M_tensor.
Import ListNotations.
Local Notation length := List.length.
Open Scope R_scope.

(** ** python's check of the number of positional arguments *)
Inductive arg := AQty (q : option (qty fl)) | AUnit (u : option unit_t).
Definition call6 {B : Type} (f : arg -> arg -> arg -> arg -> arg -> arg -> res B) (l : list arg) : res B :=
  match l with [a; b; c; d; e; g] => f a b c d e g | _ => Err TypeErr end.

(** ** the computation, per planet *)
Record planet := { p_duration : R; p_ror : R; p_b : R; p_omega : R; p_period : R; p_a : R }.
Definition fsq (z : fl) : fl := fmul z z.
(** dur_to_ecc.py:37 *)
Definition d_s (p : planet) : fl := ftrig sin (Fin (p_omega p)).
(** dur_to_ecc.py:38 *)
Definition d_umax_inv (p : planet) : fl := if flt (d_s p) (Fin 0) then fsqrt (fsub (Fin 1) (fsq (d_s p))) else Fin 1.
(** dur_to_ecc.py:40-41 *)
Definition d_const (r_star : R) (p : planet) : fl :=
  fdiv (fmul (fmul (Fin (p_period p)) (Fin r_star)) (fsqrt (fsub (fsq (fadd (Fin 1) (Fin (p_ror p)))) (fsq (Fin (p_b p))))))
       (fmul (Fin PI) (Fin (p_a p))).
(** dur_to_ecc.py:43 *)
Definition d_u (r_star : R) (p : planet) : fl := fdiv (Fin (p_duration p)) (d_const r_star p).
(** dur_to_ecc.py:45-46 *)
Definition d_e1 (s u : fl) : fl := fdiv (fmul (fneg s) (fsq u)) (fadd (fsq (fmul s u)) (Fin 1)).
Definition d_e2 (s u : fl) : fl := fdiv (fsqrt (fadd (fmul (fsub (fsq s) (Fin 1)) (fsq u)) (Fin 1))) (fadd (fsq (fmul s u)) (Fin 1)).
(** dur_to_ecc.py:55, one entry *)
Definition d_ecc (sign : R) (s u : fl) : fl := fadd (d_e1 s u) (fmul (Fin sign) (d_e2 s u)).
(** dur_to_ecc.py:58 *)
Definition d_valid (e : fl) : bool := flt e (Fin 1) && fle (Fin 0) e.
(** dur_to_ecc.py:62-65 *)
Definition d_logjac (s const e : fl) : fl :=
  fsub (fsub (fadd (fmul (Fin 0.5) (flog (fsub (Fin 1) (fsq e)))) (fmul (Fin 2) (flog (fadd (fmul s e) (Fin 1)))))
             (flog (fabs (fadd s e)))) (flog const).
Fixpoint fsum (l : list fl) : fl := match l with [] => Fin 0 | x :: l => fadd x (fsum l) end.
(** [pm.logsumexp] over all entries (without the shift by the maximum) *)
Definition logsumexp (l : list fl) : fl := flog (fsum (map fexp l)).
(** dur_to_ecc.py:51-52: [product] of ("n", -1), ("p", 1) for every planet *)
Fixpoint sign_product (n : nat) : list (list (string * R)) :=
  match n with
  | O => [[]]
  | S n => flat_map (fun a => map (cons a) (sign_product n)) [("n"%string, -1); ("p"%string, 1)]
  end.
Record branch := { br_labels : list string; br_ecc : list fl; br_logjac : fl }.
(** dur_to_ecc.py:54-69 *)
Definition make_branch (r_star : R) (ps : list planet) (args : list (string * R)) : branch :=
  let ecc := map (fun q => d_ecc (snd (fst q)) (d_s (snd q)) (d_u r_star (snd q))) (combine args ps) in
  {| br_labels := map fst args;
     br_ecc := map (fun e => if d_valid e then e else Fin 0) ecc;
     br_logjac := if forallb d_valid ecc
                  then fsum (map (fun q => d_logjac (d_s (snd q)) (d_const r_star (snd q)) (fst q)) (combine ecc ps))
                  else Inf false |}.
Definition branches (r_star : R) (ps : list planet) : list branch := map (make_branch r_star ps) (sign_product (length ps)).
(** the value of the potential (one entry per planet), the log-weights of the branches *)
Record dur_ecc_out := { de_potential : list fl; de_branches : list branch; de_logw : list fl }.
(** dur_to_ecc.py:85,97 *)
Definition in_range (r_star : R) (p : planet) : bool := flt (d_umax_inv p) (fdiv (Fin 1) (d_u r_star p)).
(** dur_to_ecc.py:36-101 *)
Definition marginalize (logprob : list fl -> fl) (r_star : R) (ps : list planet) : res dur_ecc_out :=
  let brs := branches r_star ps in
  let logjacs := map br_logjac brs in
  let total := logsumexp (map (fun b => fadd (logprob (br_ecc b)) (br_logjac b)) brs) in
  let norm := logsumexp logjacs in
  (* 96-100: the condition has one entry per planet, the log-weights one per branch *)
  match ps with
  | [p] => Ok {| de_potential := [if in_range r_star p then total else Inf false];                     (* 84-88 *)
                 de_branches := brs;
                 de_logw := map (fun j => if in_range r_star p then fsub j norm else Inf false) logjacs |}
  | _ => Err ShapeErr
  end.
(** ** the function: dur_to_ecc.py:25-34 passes eight arguments to a function of six
    (keplerian.py:849).  [resolver] stands for _get_consistent_inputs together with the
    selection of the planets' parameters. *)
Definition duration_to_eccentricity (resolver : arg -> arg -> arg -> arg -> arg -> arg -> res (R * list planet))
    (logprob : list fl -> fl) (a period rho_star r_star m_star m_planet : option (qty fl)) (rho_star_units m_planet_units : option unit_t) : res dur_ecc_out :=
  inputs <- call6 resolver [AQty a; AQty period; AQty rho_star; AQty r_star; AQty m_star; AUnit rho_star_units;
                            AQty (match m_planet with Some m => Some m | None => Some (plain (Fin 0)) end); AUnit m_planet_units] ;;
  marginalize logprob (fst inputs) (snd inputs).
