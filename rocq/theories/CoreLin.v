(** * External operation: np.linalg.solve

    numpy is not part of /repo.  [np.linalg.solve] is modelled by Gaussian
    elimination in exact arithmetic; a singular matrix is a LinAlgError. *)
From Coq Require Import Reals List Bool Arith.
From Verif Require Import Num.
Import ListNotations.
Open Scope R_scope.

Fixpoint dot (a b : list R) : R :=
  match a, b with
  | x :: a, y :: b => x * y + dot a b
  | _, _ => 0
  end.
(** a row of coefficients and the right-hand side *)
Definition lrow := (list R * R)%type.
(** the first row with a non-zero leading coefficient, and the other rows *)
Fixpoint pivot (rows : list lrow) : option (R * list R * R * list lrow) :=
  match rows with
  | [] => None
  | (q :: r, b) :: rows =>
      if Req_EM_T q 0 then
        match pivot rows with
        | None => None
        | Some (x, others) => Some (x, (q :: r, b) :: others)
        end
      else Some (q, r, b, rows)
  | ([], _) :: _ => None
  end.
Definition eliminate (p : R) (c : list R) (b : R) (row : lrow) : lrow :=
  match row with
  | (q :: r, d) => (map (fun z => fst z - q / p * snd z) (combine r c), d - q / p * b)
  | ([], d) => ([], d)
  end.
Fixpoint gauss (n : nat) (rows : list lrow) : option (list R) :=
  match n with
  | O => Some []
  | S m =>
      match pivot rows with
      | None => None
      | Some (p, c, b, others) =>
          match gauss m (map (eliminate p c b) others) with
          | None => None
          | Some w => Some ((b - dot c w) / p :: w)
          end
      end
  end.
(** [np.linalg.solve(A, b)] *)
Definition linsolve (A : list (list R)) (b : list R) : res (list R) :=
  let n := length A in
  if forallb (fun r => Nat.eqb (length r) n) A && Nat.eqb (length b) n then
    match gauss n (combine A b) with Some w => Ok w | None => Err LinAlgErr end
  else Err LinAlgErr.
