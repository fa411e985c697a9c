(** * The weight that unit_disk, quad_limb_dark and impact_parameter give *)
From Coq Require Import Reals List Bool Arith ZArith String Lra Lia.
From Coquelicot Require Import Coquelicot.
From Verif Require Import Num CoreOps Inst M_kwargs M_tensor M_limbdark M_dist Spec_dist Spec_prior L_real L_fl L_shapeS L_dist1 L_dist2 L_dist3 L_dist4 L_prior Ex_dist.
Import ListNotations.
Local Notation length := List.length.
Open Scope R_scope.

Lemma disk_weight : forall p nx ny kw ss x y, unit_disk p nx ny kw = Ok (ss, (x, y)) ->
  exists n1 n2 kw1 kw2 rest q X Y W, ss = Free [] n1 "Uniform" kw1 :: Free [] n2 "Uniform" kw2 :: rest /\ List.Forall no_variable rest /\
    on_interval (-1) 1 kw1 /\ on_interval (-1) 1 kw2 /\ potentials rest = [q] /\
    (forall e i a b, aget (e n1) i = Fin a -> aget (e n2) i = Fin b -> -1 < a < 1 -> -1 < b < 1 ->
       aget (x e) i = Fin (X a b) /\ aget (y e) i = Fin (Y a b) /\ 0 < W a b /\ aget (q e) i = Fin (ln (W a b))) /\
    (forall G m, (forall u, -1 < u < 1 -> ex_RInt (G u) (- sqrt (1 - u * u)) (sqrt (1 - u * u))) ->
       is_RInt (fun u => RInt (G u) (- sqrt (1 - u * u)) (sqrt (1 - u * u))) (-1) 1 m -> weighs (-1) 1 X Y W G m) /\
    (forall r, 0 <= r <= 1 -> weighs (-1) 1 X Y W (fun u v => one_if (Rle_dec (u * u + v * v) (r * r))) (PI * (r * r))).
Proof.
  intros p nx ny kw ss x y E. destruct (disk_form _ _ _ _ _ _ _ E) as (kw1 & kw2 & f & -> & -> & -> & -> & F).
  exists nx, (disk2 ny), kw1, kw2. eexists. eexists. exists (fun a _ => a), (fun a b => b * half a), (fun a _ => half a).
  split; [reflexivity|]. split; [repeat constructor; first [apply not_free_pot|apply not_free_det]|].
  destruct F as (? & ? & ? & ? & ? & _ & _ & _ & _ & _ & (_ & _ & F1 & _) & (_ & _ & F2 & _)).
  split; [exact F1|]. split; [exact F2|]. split; [reflexivity|]. split.
  { intros e i a b E1 E2 Ha Hb. assert (A := sq_lt a Ha). assert (S := sqrt_lt_R0 _ A). split; [exact E1|]. split.
    { cbn [nmul nsqrt nsub nlit npw NumT amap2 amap alit aget]. rewrite E1, E2, fnorm by exact Ha. reflexivity. }
    split; [exact S|].
    cbn [nlog nsqrt nsub nlit npw nmul NumT amap2 amap alit aget]. rewrite E1, fnorm by exact Ha. cbn [flog].
    unfold Rltb. destruct (Rlt_dec 0 (sqrt (1 - a * a))); [|lra]. reflexivity. }
  split. { intros G m HG Hm. apply disk_uniform; assumption. }
  intros r Hr. apply (disk_within r Hr).
Qed.

Lemma law_weight : forall p name kw ss out, quad_limb_dark p name kw = Ok (ss, out) ->
  exists c n1 n2 kw1 kw2 rest U1 U2, ss = c :: Free [] n1 "Uniform" kw1 :: Free [] n2 "Uniform" kw2 :: rest /\ no_variable c /\ List.Forall no_variable rest /\
    on_interval 0 1 kw1 /\ on_interval 0 1 kw2 /\ potentials ss = [] /\
    (forall e i s a b, ash (e n1) = Ok s -> ash (e n2) = Ok s -> aget (e n1) i = Fin a -> aget (e n2) i = Fin b -> 0 <= a ->
       (i (length s) = 0%nat -> aget (out e) i = Fin (U1 a b)) /\ (i (length s) = 1%nat -> aget (out e) i = Fin (U2 a b))) /\
    (forall G, (forall u v, continuity_2d_pt G u v) ->
       weighs 0 1 U1 U2 (fun _ _ => 1) G (RInt (fun s => RInt (fun v => G v (s - v)) 0 (2 * s)) 0 1)) /\
    (forall s, 0 <= s <= 1 -> weighs 0 1 U1 U2 (fun _ _ => 1) (fun u1 u2 => one_if (Rle_dec (u1 + u2) s)) (s * s)) /\
    weighs 0 1 U1 U2 (fun _ _ => 1) (fun _ _ => 1) 1 /\
    weighs 0 1 U1 U2 (fun _ _ => 1) (fun u1 _ => u1) (2 / 3) /\ weighs 0 1 U1 U2 (fun _ _ => 1) (fun _ u2 => u2) 0.
Proof.
  intros p name kw ss out E. destruct (quad_form _ _ _ _ _ E) as (kw1 & kw2 & -> & -> & ? & ? & ? & _ & _ & _ & (_ & _ & F1 & _) & (_ & _ & F2 & _)).
  eexists. exists (quad1 name), (quad2 name), kw1, kw2. eexists. exists lx, ly.
  split; [reflexivity|]. split; [intros ? ? ? ? Q; discriminate Q|]. split; [repeat constructor; apply not_free_det|].
  split; [exact F1|]. split; [exact F2|]. split; [reflexivity|]. split.
  { intros e i s a b S1 S2 E1 E2 Ha. unfold quad_out.
    assert (SA : ash (nsqrt (e (quad1 name)) * (nlit 2 * e (quad2 name)))%num = Ok s).
    { cbn [nmul nsqrt nlit NumT amap2 amap alit ash]. rewrite S1, S2. cbn [bcr bc]. rewrite bc_refl. reflexivity. }
    assert (FA : fsqrt (Fin a) = Fin (sqrt a)) by (cbn [fsqrt]; unfold Rltb; destruct (Rlt_dec a 0); [lra|reflexivity]).
    split; intro Hi; [rewrite (stack2_0 _ _ s i SA Hi)|rewrite (stack2_1 _ _ s i SA Hi)]; cbn [nmul nsqrt nsub nlit NumT amap2 amap alit aget]; rewrite E1, E2, FA; cbn [fmul fsub fadd fneg]; f_equal; unfold lx, ly; ring. }
  split; [exact law_uniform|]. split; [exact law_within|]. split; [exact law_total|]. split; [exact law_mean1|exact law_mean2].
Qed.

Lemma impact_weight : forall p name ror kw ss out, impact_parameter p name ror kw = Ok (ss, out) ->
  exists n kw1 rest, ss = Free [] n "Uniform" kw1 :: rest /\ List.Forall no_variable rest /\ potentials ss = [] /\ on_interval 0 1 kw1 /\
    forall i k, aget ror i = Fin k -> -1 < k -> exists B, (forall e a, aget (e n) i = Fin a -> aget (out e) i = Fin (B a)) /\
      forall G, ex_RInt G 0 (1 + k) -> is_RInt (fun a => G (B a)) 0 1 (RInt G 0 (1 + k) / (1 + k)).
Proof.
  intros p name ror kw ss out E. destruct (impact_form _ _ _ _ _ _ E) as (kw1 & -> & -> & bh & b2 & _ & _ & F).
  exists (impact1 name), kw1. eexists. split; [reflexivity|]. split; [repeat constructor; apply not_free_det|]. split; [reflexivity|]. split.
  { intros k v H. destruct F as (_ & _ & F & _). apply F. apply in_or_app. right. exact H. }
  intros i k Ek Hk. exists (fun a => a * (1 + k)). split.
  { intros e a Ea. cbn [nmul nadd nlit NumT amap2 alit aget]. rewrite Ek, Ea. reflexivity. }
  intros G HG. apply interval_uniform; [lra|exact HG].
Qed.
Lemma prior_example : exists s x y s' out s'' b, unit_disk false "h" "k" [] = Ok (s, (x, y)) /\ quad_limb_dark false "u" [] = Ok (s', out) /\
  impact_parameter false "b" (alit (Fin (1 / 10))) [] = Ok (s'', b) /\ aget (alit (Fin (1 / 10))) (fun _ => O) = Fin (1 / 10).
Proof.
  destruct (disk_total false "h" "k" [] [] ltac:(left; split; reflexivity) ltac:(left; repeat split)) as (s & [x y] & E1).
  destruct (quad_total false "u" [] ltac:(left; repeat split)) as (s' & out & E2).
  destruct (impact_total false "b" (alit (Fin (1 / 10))) [] [] [] eq_refl ltac:(left; split; reflexivity) ltac:(left; repeat split)) as (s'' & b & E3).
  exists s, x, y, s', out, s'', b. repeat split; assumption.
Qed.
