(** * Model of KeplerianOrbit._get_position_and_velocity, orbits/keplerian.py:336-378 *)
From Coq Require Import Reals List Bool Arith.
From Verif Require Import Num CoreOps Inst M_units M_kepler M_tensor M_limbdark.
Import ListNotations.
Local Notation length := List.length.
Open Scope R_scope.

(** ** array operations *)
(** [stack((x, y, z), axis=-1)] *)
Definition stack3 (v : tens * tens * tens) : tens :=
  let '(x, y, z) := v in
  mkA (match ash x, ash y, ash z with
       | Ok s, Ok s1, Ok s2 =>
           if list_eq_dec Nat.eq_dec s s1 then if list_eq_dec Nat.eq_dec s s2 then Ok (3%nat :: s) else Err ShapeErr else Err ShapeErr
       | Err e, _, _ => Err e
       | _, Err e, _ => Err e
       | _, _, Err e => Err e
       end)
      (fun i => let q := fun d => i (S d) in
                match i O with O => aget x q | S O => aget y q | _ => aget z q end).
(** [sum(x, axis=0, keepdims=True)]: axis 0 is the FIRST axis *)
Definition asum0 (x : tens) : tens :=
  match ash x with
  | Err e => mkA (Err e) (aget x)
  | Ok [] => mkA (Err ValueError) (aget x)
  | Ok s => mkA (Ok (removelast s ++ [1%nat]))
                (fun i => fsum (map (fun m => aget x (set_ix (length s - 1) m i)) (seq 0 (last s O))))
  end.
(** [concatenate((a, b), axis=0)] *)
Definition aconcat0 (a b : tens) : tens :=
  match ash a, ash b with
  | Err e, _ => mkA (Err e) (aget a)
  | _, Err e => mkA (Err e) (aget a)
  | Ok [], _ => mkA (Err ValueError) (aget a)
  | Ok sa, Ok sb =>
      let ax := (length sa - 1)%nat in
      let p := last sa O in
      mkA (if list_eq_dec Nat.eq_dec (removelast sa) (removelast sb) then
             if Nat.eqb (length sa) (length sb) then Ok (removelast sa ++ [(p + last sb O)%nat]) else Err ShapeErr
           else Err ShapeErr)
          (fun i => if Nat.ltb (i ax) p then aget a i else aget b (set_ix ax (i ax - p) i))
  end.

Section G.
Context {T B : Type} {N : Num T B}.
Local Open Scope num_scope.
Variable o : orbit T.
Variable warp : bool -> T -> T.

(** keplerian.py:337, 339-340, 342-343, 349: the position in units of the
    semi-major axis *)
Definition unit_position (t : T) : T * T * T :=
  let '(sinf, cosf) := true_anomaly o warp true t in
  let r := match o_ecc o with
           | None => #1                                            (* 340 *)
           | Some d => (#1 - e_ecc d ^ 2) / (#1 + e_ecc d * cosf)  (* 343 *)
           end in
  rotate_vector o (r * cosf) (r * sinf).                           (* 348 *)
(** keplerian.py:341, 344-346: the velocity per unit of mass of the other body *)
Definition unit_velocity (t : T) : T * T * T :=
  let '(sinf, cosf) := true_anomaly o warp true t in
  match o_ecc o with
  | None => rotate_vector o ((- o_K0 o) * sinf) (o_K0 o * cosf)
  | Some d => rotate_vector o ((- o_K0 o) * sinf) (o_K0 o * (cosf + e_ecc d))
  end.
End G.

(** keplerian.py:336-378 *)
Definition get_position_and_velocity (k : consts) (o : orbit tens) (warp : bool -> tens -> tens) (t : tens) (parallax : option tens)
  : tens * tens :=
  let pos := stack3 (unit_position o warp t) in                                        (* 350 *)
  let pos := aconcat0 (asum0 (apadr (o_a_star o) * pos)%num) (apadr (o_a_planet o) * pos)%num in       (* 351-359 *)
  let vel := stack3 (unit_velocity o warp t) in                                        (* 360 *)
  let vel := aconcat0 (asum0 (apadr (o_m_planet o) * vel)%num) (- apadr (o_m_star o) * vel)%num in     (* 361-371 *)
  match parallax with
  | None => (pos, vel)
  | Some p => let f := (p * nlit (au_per_R_sun k))%num in (pos * f, vel * f)%num       (* 373-376 *)
  end.
