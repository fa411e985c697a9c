(** * Examples for the distributions *)
From Coq Require Import Reals List Bool Arith ZArith String Lra Lia.
From Verif Require Import Num CoreOps Inst M_kwargs M_tensor M_limbdark M_dist Spec_dist L_dist1 L_dist2 L_dist3.
Import ListNotations.
Local Notation length := List.length.
Open Scope R_scope.

Definition ex_kw : dict := [("testval"%string, PNum (alit (Fin 3))); ("shape"%string, PShape []); ("initval"%string, PNum (alit (Fin 1)))].
Lemma angle_example : exists ss out e, angle false "phi" (Some (alit (Fin 10))) ex_kw = Ok (ss, out) /\
  requested ex_kw (PNum (alit (Fin 1))) /\ shape_is ex_kw [] /\ at_start false ss e /\ - PI < 1 <= PI /\ (potentials ss <> []) /\
  aget (out e) (fun _ => O) = Fin 1.
Proof.
  assert (P := PI_RGT_0). assert (P1 := PI2_1). unfold PI2 in *.
  assert (R : requested ex_kw (PNum (alit (Fin 1)))) by (left; reflexivity).
  assert (B : - PI < 1 <= PI) by lra.
  destruct (angle false "phi" (Some (alit (Fin 10))) ex_kw) as [[ss out]|] eqn:E; [|discriminate E].
  exists ss, out, (fun n => if String.eqb n "__phi_angle1" then alit (Fin (sin 1)) else alit (Fin (cos 1))).
  split; [reflexivity|]. split; [exact R|]. split; [right; left; reflexivity|].
  assert (A : at_start false ss (fun n => if String.eqb n "__phi_angle1" then alit (Fin (sin 1)) else alit (Fin (cos 1)))).
  { injection E as <- <-. intros sc n c kw x H.
    destruct H as [H|[H|[H|[H|[]]]]]; try discriminate H; injection H as <- <- <- <-; cbn; intro Q; injection Q as <-; reflexivity. }
  split; [exact A|]. split; [exact B|]. split; [injection E as <- <-; discriminate|].
  exact (angle_start _ _ _ _ _ _ _ E R _ _ _ A eq_refl B).
Qed.
Definition ex_pair (a b : R) : tens := mkA (Ok [2%nat]) (fun i => match i O with O => Fin a | _ => Fin b end).
Definition ex_kw2 (a b : R) : dict := [("initval"%string, PNum (ex_pair a b)); ("lower"%string, PNone)].
Lemma disk_example : exists ss x y e, unit_disk false "h" "k" (ex_kw2 (1 / 2) (1 / 2)) = Ok (ss, (x, y)) /\
  requested (ex_kw2 (1 / 2) (1 / 2)) (PNum (ex_pair (1 / 2) (1 / 2))) /\ at_start false ss e /\
  aget (y e) (fun _ => O) <> Fin (1 / 2).
Proof.
  assert (R : requested (ex_kw2 (1 / 2) (1 / 2)) (PNum (ex_pair (1 / 2) (1 / 2)))) by (left; reflexivity).
  destruct (unit_disk false "h" "k" (ex_kw2 (1 / 2) (1 / 2))) as [[ss [x y]]|] eqn:E; [|discriminate E].
  destruct (disk_form _ _ _ _ _ _ _ E) as (kw1 & kw2 & f & Q & _ & _ & _ & s & z & v & v0 & v1 & _ & _ & _ & _ & _ & F1 & F2).
  set (w := (v1 * nsqrt (nlit 1 - v0 ^ 2))%num) in *.
  assert (A : at_start false ss (fun n => if String.eqb n "h" then v0 else w)).
  { rewrite Q. intros sc n c kw t H.
    destruct H as [H|[H|[H|[H|[]]]]]; try discriminate H; injection H as <- <- <- <-; intro G.
    - assert (G' := eq_trans (eq_sym G) (proj1 F1)). injection G' as ->. reflexivity.
    - assert (G' := eq_trans (eq_sym G) (proj1 F2)). injection G' as ->. reflexivity. }
  exists ss, x, y. eexists. split; [reflexivity|]. split; [exact R|]. split; [exact A|].
  destruct (disk_start _ _ _ _ _ _ _ _ _ E R eq_refl _ (fun _ => O) (1 / 2) (1 / 2) A eq_refl eq_refl) as [_ ->]; [lra|].
  intro G. injection G as G. lra.
Qed.
Lemma quad_example : exists ss out e, quad_limb_dark true "u" (ex_kw2 (3 / 10) (2 / 10)) = Ok (ss, out) /\
  requested (ex_kw2 (3 / 10) (2 / 10)) (PNum (ex_pair (3 / 10) (2 / 10))) /\ at_start true ss e /\
  aget (out e) (set_ix 0 0 (fun _ => O)) = Fin (3 / 10) /\ aget (out e) (set_ix 0 1 (fun _ => O)) = Fin (2 / 10).
Proof.
  assert (R : requested (ex_kw2 (3 / 10) (2 / 10)) (PNum (ex_pair (3 / 10) (2 / 10)))) by (left; reflexivity).
  destruct (quad_limb_dark true "u" (ex_kw2 (3 / 10) (2 / 10))) as [[ss out]|] eqn:E; [|discriminate E].
  destruct (quad_form _ _ _ _ _ E) as (kw1 & kw2 & Q & _ & u & u1 & u2 & _ & _ & _ & F1 & F2).
  set (w1 := ((u1 + u2) ^ 2)%num) in *. set (w2 := (nlit (1 / 2) * u1 / (u1 + u2))%num) in *.
  assert (A : at_start true ss (fun n => if String.eqb n (quad1 "u") then w1 else w2)).
  { rewrite Q. intros sc n c kw t H.
    destruct H as [H|[H|[H|[H|[]]]]]; try discriminate H; injection H as <- <- <- <-; intro G.
    - assert (G' := eq_trans (eq_sym G) (proj1 F1)). injection G' as ->. reflexivity.
    - assert (G' := eq_trans (eq_sym G) (proj1 F2)). injection G' as ->. reflexivity. }
  exists ss, out. eexists. split; [reflexivity|]. split; [exact R|]. split; [exact A|].
  exact (quad_start _ _ _ _ _ _ [] E R eq_refl _ (fun _ => O) (3 / 10) (2 / 10) A eq_refl eq_refl ltac:(lra)).
Qed.
Lemma impact_example : exists ss out e, impact_parameter false "b" (alit (Fin (1 / 10))) ex_kw = Ok (ss, out) /\
  requested ex_kw (PNum (alit (Fin 1))) /\ at_start false ss e /\ aget (out e) (fun _ => O) = Fin 1.
Proof.
  assert (R : requested ex_kw (PNum (alit (Fin 1)))) by (left; reflexivity).
  destruct (impact_parameter false "b" (alit (Fin (1 / 10))) ex_kw) as [[ss out]|] eqn:E; [|discriminate E].
  destruct (impact_form _ _ _ _ _ _ E) as (kw1 & Q & _ & bh & b2 & _ & _ & F).
  exists ss, out, (fun _ => (b2 / (nlit 1 + alit (Fin (1 / 10))))%num). split; [reflexivity|]. split; [exact R|].
  assert (A : at_start false ss (fun _ => (b2 / (nlit 1 + alit (Fin (1 / 10))))%num)).
  { rewrite Q. intros sc n c kw t H. destruct H as [H|[H|[]]]; try discriminate H; injection H as <- <- <- <-; intro G.
    assert (G' := eq_trans (eq_sym G) (proj1 F)). injection G' as ->. reflexivity. }
  split; [exact A|]. apply (impact_start _ _ _ _ _ _ _ E R _ _ (1 / 10) 1 A); [reflexivity|lra|reflexivity].
Qed.
