(** * Secondary eclipses: light curves *)
From Coq Require Import Reals List Bool Arith ZArith Lra Lia Psatz.
From Verif Require Import Num CoreOps Inst CoreFlux M_units M_kepler M_fin M_tensor M_simple M_ttv M_limbdark M_secondary
  Spec_orbit Spec_params Spec_array Spec_light Spec_secondary Ex_orbit Ex_system
  L_real L_orbit L_params3 L_fl L_fl2 L_fl3 L_fl4 L_tens L_shape L_transit3 L_transit5 L_transit6 L_array L_motion L_pmotion L_pmotion3 L_pmotion5 L_reshape L_light1 L_light4 L_light5 L_light7 L_light8 L_light9 L_transit4 L_second.
Import ListNotations.
Local Notation length := List.length.
Open Scope R_scope.

Lemma one_each_elements n a v : one_each n a -> planet_values n a v -> elements n a v.
Proof.
  intros H [[W _] V]. destruct H as [E|[N1 E]].
  - split; [exists [n]; split; [exact E|cbn; lia]|]. intros j Hj. unfold flat. rewrite E. rewrite <- (V j Hj).
    apply (W _ E). intros q Hq. destruct q as [|q]; [cbn; apply Nat.mod_small; exact Hj|]. destruct q; cbn in Hq; contradiction.
  - split; [exists []; split; [exact E|cbn; lia]|]. intros j Hj. unfold flat. rewrite E. rewrite <- (V j Hj).
    apply (W _ E). intros q Hq. destruct q; cbn in Hq; contradiction.
Qed.

(** ** the combination *)
Section C.
Variables (k : consts) (n : nat) (x : kargs tens) (xs : nat -> kargs R) (os : nat -> orbit R) (o : orbit tens).
Hypothesis kok : consts_ok k.
Hypothesis sys : system k n x xs os.
Hypothesis Ho : kep_init k x = Ok o.
Variables (r : tens) (rs : nat -> R).
Hypothesis Hr : planet_values n r rs.
Hypothesis Hr0 : forall j, (j < n)%nat -> 0 < rs j.

Lemma rstar_numbers : planet_values n (o_r_star o) (fun j => o_r_star (os j)).
Proof.
  destruct (o_facts k n x xs os o kok sys Ho) as (So & _ & _ & Oat). split.
  - apply (attr_pp k n x xs os o sys Ho (@o_r_star fl)); [reflexivity|apply So].
  - intros j Hj. assert (E := Oat (at_planet j) Hj). apply (f_equal (fun q => o_r_star q)) in E. exact E.
Qed.
Lemma numbers_at a v i : planet_values n a v -> (i O < n)%nat -> aget a i = Fin (v (i O)).
Proof.
  intros [P V] Hi. rewrite (at_shifted n a P i (at_planet (i O))); [apply V; exact Hi|]. right. reflexivity.
Qed.

Lemma mixed cp S ss N t texp os' order use ld X1 X2 f1 f2 o2 :
  planet_values n (se_ratio S) ss -> (forall j, (j < n)%nat -> 0 <= ss j) -> flip k o r = Ok o2 ->
  get_light_curve (se_primary S) (Some (kep_api k cp o)) (Some r) t texp os' order use ld = Ok X1 -> light_table n N X1 f1 ->
  get_light_curve (se_secondary S) (Some (kep_api k cp o2)) (Some (o_r_star o)) t texp os' order use ld = Ok X2 -> light_table n N X2 f2 ->
  exists X, secondary_light_curve k cp S o r t texp os' order use ld = Ok X /\
    light_table n N X (fun m j => mixture (flux_ratio (ss j) (rs j) (o_r_star (os j))) (f1 m j) (f2 m j)).
Proof.
  intros Hs Hs0 Hf E1 [S1 T1'] E2 [S2 T2]. unfold secondary_light_curve. rewrite Hf. cbn [rbind]. rewrite E1. cbn [rbind]. rewrite E2. cbn [rbind].
  set (ratio := (se_ratio S * (r / o_r_star o) ^ 2)%num).
  assert (Sratio : Sn n ratio).
  { unfold ratio. assert (K := pp_sn n _ (proj1 Hr)). assert (K' := pp_sn n _ (proj1 rstar_numbers)). assert (K2 := pp_sn n _ (proj1 Hs)).
    apply Sn_map2; [exact K2|]. assert (K3 : Sn n (r / o_r_star o)%num) by (apply Sn_map2; assumption). cbn [npw].
    apply Sn_map2; [exact K3|]. first [exact K3 | apply Sn_map2; [exact K3|apply Sn_lit]]. }
  set (out := ((X1 + ratio * X2) / (nlit 1 + ratio))%num).
  assert (Sout : ash out = Ok [n; N]).
  { change (EN n N out). unfold out. apply EN_map2l; [apply EN_map2; [exact S1|apply EN_map2r; [exact Sratio|exact S2]]|]. apply Sn_map2; [apply Sn_lit|exact Sratio]. }
  rewrite Sout. cbn [rbind]. exists out. split; [reflexivity|]. split; [exact Sout|]. intros m j Hm Hj.
  assert (Er : aget r (at_tp m j) = Fin (rs j)) by (apply (numbers_at r rs (at_tp m j) Hr); exact Hj).
  assert (Es : aget (o_r_star o) (at_tp m j) = Fin (o_r_star (os j))) by (apply (numbers_at _ (fun j => o_r_star (os j)) (at_tp m j) rstar_numbers); exact Hj).
  assert (Ess : aget (se_ratio S) (at_tp m j) = Fin (ss j)) by (apply (numbers_at _ ss (at_tp m j) Hs); exact Hj).
  assert (R1 := ph_r_star _ (sy_phys _ _ _ _ _ sys j Hj)). assert (R2 := Hr0 j Hj). assert (R3 := Hs0 j Hj).
  assert (Eratio : aget ratio (at_tp m j) = Fin (flux_ratio (ss j) (rs j) (o_r_star (os j)))).
  { transitivity (fmul (aget (se_ratio S) (at_tp m j)) (npw (fdiv (aget r (at_tp m j)) (aget (o_r_star o) (at_tp m j))) 2)); [reflexivity|].
    rewrite Er, Es, Ess. unfold fdiv, flux_ratio. rewrite (Reqb_ne (o_r_star (os j)) 0) by lra. cbn. f_equal; try ring. }
  assert (F0 : 0 <= flux_ratio (ss j) (rs j) (o_r_star (os j))).
  { unfold flux_ratio. apply Rmult_le_pos; [exact R3|]. apply Rle_0_sqr. }
  transitivity (fdiv (fadd (aget X1 (at_tp m j)) (fmul (aget ratio (at_tp m j)) (aget X2 (at_tp m j)))) (fadd (Fin 1) (aget ratio (at_tp m j)))); [reflexivity|].
  rewrite Eratio, (T1' m j Hm Hj), (T2 m j Hm Hj). cbn [fadd fmul]. unfold fdiv. rewrite Reqb_ne by lra. reflexivity.
Qed.

(** ** end to end *)
Lemma second_plain cp u1 u2 v1 v2 s ss N t ts os' order :
  disk_flux u1 u2 <> 0 -> disk_flux v1 v2 <> 0 -> one_each n r -> one_each n (o_r_star o) ->
  planet_values n s ss -> (forall j, (j < n)%nat -> 0 <= ss j) ->
  is_vector N t -> (forall m, (m < N)%nat -> aget t (at_time m) = Fin (ts m)) ->
  exists X, secondary_light_curve k cp {| se_primary := ld_init (Fin u1) (Fin u2); se_secondary := ld_init (Fin v1) (Fin v2); se_ratio := s |}
      o r (Some t) None os' order (Some false) false = Ok X /\
    light_table n N X (fun m j => let P := pos k (os j) Relative (ts m) None false in
      mixture (flux_ratio (ss j) (rs j) (o_r_star (os j))) (flux_at u1 u2 P (rs j) (o_r_star (os j))) (flux_at v1 v2 (opposite P) (o_r_star (os j)) (rs j))).
Proof.
  intros D1 D2 O1 O2 Hs Hs0 Ht Hts. destruct (flip_system k n x xs os o kok sys Ho r rs Hr Hr0) as (o2 & os2 & Hf & sys2 & F2).
  destruct (kepler_answers k n x xs os o cp kok sys Ho) as [A1 B1]. destruct (kepler_answers k n _ _ os2 o2 cp kok sys2 Hf) as [A2 B2].
  assert (N1 : forall j, (j < n)%nat -> o_r_star (os j) <> 0) by (intros j Hj; assert (K := ph_r_star _ (sy_phys _ _ _ _ _ sys j Hj)); lra).
  assert (N2 : forall j, (j < n)%nat -> o_r_star (os2 j) <> 0) by (intros j Hj; assert (K := ph_r_star _ (sy_phys _ _ _ _ _ sys2 j Hj)); lra).
  destruct (lc_plain u1 u2 _ false n _ _ r rs N t ts os' order D1 A1 B1 N1 (one_each_elements n r rs O1 Hr) Ht Hts) as (X1 & E1 & T1').
  destruct (lc_plain v1 v2 _ false n _ _ (o_r_star o) _ N t ts os' order D2 A2 B2 N2 (one_each_elements n _ _ O2 rstar_numbers) Ht Hts) as (X2 & E2 & T2).
  destruct (mixed cp {| se_primary := ld_init (Fin u1) (Fin u2); se_secondary := ld_init (Fin v1) (Fin v2); se_ratio := s |} ss N (Some t) None os' order (Some false) false X1 X2 _ _ o2 Hs Hs0 Hf E1 T1' E2 T2) as (X & EX & SX & TX).
  exists X. split; [exact EX|]. split; [exact SX|]. intros m j Hm Hj. rewrite (TX m j Hm Hj). cbv zeta. destruct (F2 j Hj) as (G1 & _ & _ & _ & G2). rewrite G1, G2. reflexivity.
Qed.
Lemma second_exposed cp u1 u2 v1 v2 s ss N t ts e es os' order nodes weights :
  disk_flux u1 u2 <> 0 -> disk_flux v1 v2 <> 0 -> one_each n r -> one_each n (o_r_star o) ->
  planet_values n s ss -> (forall j, (j < n)%nat -> 0 <= ss j) ->
  is_vector N t -> (forall m, (m < N)%nat -> aget t (at_time m) = Fin (ts m)) -> exposures N e es -> stencil os' order = Ok (nodes, weights) ->
  exists X, secondary_light_curve k cp {| se_primary := ld_init (Fin u1) (Fin u2); se_secondary := ld_init (Fin v1) (Fin v2); se_ratio := s |}
      o r (Some t) (Some e) os' order (Some false) false = Ok X /\
    light_table n N X (fun m j => let P u := pos k (os j) Relative u None false in
      mixture (flux_ratio (ss j) (rs j) (o_r_star (os j)))
        (node_mean nodes weights (fun u => flux_at u1 u2 (P u) (rs j) (o_r_star (os j))) (ts m) (es m))
        (node_mean nodes weights (fun u => flux_at v1 v2 (opposite (P u)) (o_r_star (os j)) (rs j)) (ts m) (es m))).
Proof.
  intros D1 D2 O1 O2 Hs Hs0 Ht Hts He Hst. destruct (flip_system k n x xs os o kok sys Ho r rs Hr Hr0) as (o2 & os2 & Hf & sys2 & F2).
  destruct (kepler_answers k n x xs os o cp kok sys Ho) as [A1 B1]. destruct (kepler_answers k n _ _ os2 o2 cp kok sys2 Hf) as [A2 B2].
  assert (N1 : forall j, (j < n)%nat -> o_r_star (os j) <> 0) by (intros j Hj; assert (K := ph_r_star _ (sy_phys _ _ _ _ _ sys j Hj)); lra).
  assert (N2 : forall j, (j < n)%nat -> o_r_star (os2 j) <> 0) by (intros j Hj; assert (K := ph_r_star _ (sy_phys _ _ _ _ _ sys2 j Hj)); lra).
  destruct (lc_exposed u1 u2 _ false n _ _ r rs N t ts e es os' order nodes weights D1 A1 B1 N1 (one_each_elements n r rs O1 Hr) Ht Hts He Hst) as (X1 & E1 & T1').
  destruct (lc_exposed v1 v2 _ false n _ _ (o_r_star o) _ N t ts e es os' order nodes weights D2 A2 B2 N2 (one_each_elements n _ _ O2 rstar_numbers) Ht Hts He Hst) as (X2 & E2 & T2).
  destruct (mixed cp {| se_primary := ld_init (Fin u1) (Fin u2); se_secondary := ld_init (Fin v1) (Fin v2); se_ratio := s |} ss N (Some t) (Some e) os' order (Some false) false X1 X2 _ _ o2 Hs Hs0 Hf E1 T1' E2 T2) as (X & EX & SX & TX).
  exists X. split; [exact EX|]. split; [exact SX|]. intros m j Hm Hj. rewrite (TX m j Hm Hj). cbv zeta. destruct (F2 j Hj) as (G1 & _ & _ & _ & G2). rewrite G1.
  unfold node_mean. apply f_equal, f_equal, f_equal, map_ext. intro p. rewrite G2. reflexivity.
Qed.
(** the default mask for circular orbits *)
Lemma second_masked cp u1 u2 v1 v2 s ss N t ts e os' order :
  disk_flux u1 u2 <> 0 -> disk_flux v1 v2 <> 0 -> one_each n r -> one_each n (o_r_star o) ->
  planet_values n s ss -> (forall j, (j < n)%nat -> 0 <= ss j) ->
  is_vector N t -> (forall m, (m < N)%nat -> aget t (at_time m) = Fin (ts m)) ->
  0 <= pad_of e -> (0 <= os')%Z -> (order = 0 \/ order = 1 \/ order = 2)%Z ->
  (forall j, (j < n)%nat -> ka_ecc (xs j) = None /\ o_r_star (os j) + rs j < o_a (os j) /\ 0 <= o_sin_incl (os j)) ->
  exists X Y f, secondary_light_curve k (lift_cp cp) {| se_primary := ld_init (Fin u1) (Fin u2); se_secondary := ld_init (Fin v1) (Fin v2); se_ratio := s |}
      o r (Some t) (one_texp e) os' order None false = Ok X /\
    secondary_light_curve k (lift_cp cp) {| se_primary := ld_init (Fin u1) (Fin u2); se_secondary := ld_init (Fin v1) (Fin v2); se_ratio := s |}
      o r (Some t) (one_texp e) os' order (Some false) false = Ok Y /\
    light_table n N X f /\ light_table n N Y f.
Proof.
  intros D1 D2 O1 O2 Hs Hs0 Ht Hts He Hos Hor G. destruct (flip_system k n x xs os o kok sys Ho r rs Hr Hr0) as (o2 & os2 & Hf & sys2 & F2).
  destruct (masked_kepler u1 u2 k n x xs os o cp r rs N t ts e os' order D1 kok sys Ho (one_each_elements n r rs O1 Hr)) as (X1 & Y1 & f1 & A1 & B1 & C1 & C1'); try assumption.
  { intros j Hj. assert (K := Hr0 j Hj). lra. }
  { left. exact G. }
  destruct (masked_kepler v1 v2 k n (flip_args o r) _ os2 o2 cp (o_r_star o) _ N t ts e os' order D2 kok sys2 Hf (one_each_elements n _ _ O2 rstar_numbers)) as (X2 & Y2 & f2 & A2 & B2 & C2 & C2'); try assumption.
  { intros j Hj. assert (K := ph_r_star _ (sy_phys _ _ _ _ _ sys j Hj)). lra. }
  { left. intros j Hj. destruct (G j Hj) as (Ga & Gb & Gc). destruct (F2 j Hj) as (Fa & Fb & Fc & Fd & _). split.
    - unfold flip_args. rewrite (proj2 (kep_circ k _ _ (sy_init _ _ _ _ _ sys j Hj)) Ga). reflexivity.
    - rewrite Fa, Fb, Fc. split; lra. }
  destruct (mixed (lift_cp cp) {| se_primary := ld_init (Fin u1) (Fin u2); se_secondary := ld_init (Fin v1) (Fin v2); se_ratio := s |} ss N (Some t) (one_texp e) os' order None false X1 X2 _ _ o2 Hs Hs0 Hf A1 C1 A2 C2) as (X & EX & TX).
  destruct (mixed (lift_cp cp) {| se_primary := ld_init (Fin u1) (Fin u2); se_secondary := ld_init (Fin v1) (Fin v2); se_ratio := s |} ss N (Some t) (one_texp e) os' order (Some false) false Y1 Y2 _ _ o2 Hs Hs0 Hf B1 C1' B2 C2') as (Y & EY & TY).
  eexists X, Y, _. split; [exact EX|]. split; [exact EY|]. split; [exact TX|exact TY].
Qed.
(** several planets around one star *)
Lemma second_many cp u1 u2 v1 v2 s N t ts texp es os' order :
  disk_flux u1 u2 <> 0 -> one_each n r -> (2 <= n)%nat -> ash (o_r_star o) = Ok [] -> (0 < N)%nat ->
  is_vector N t -> (forall m, (m < N)%nat -> aget t (at_time m) = Fin (ts m)) ->
  opt_exposures N texp es -> (0 <= os')%Z -> (order = 0 \/ order = 1 \/ order = 2)%Z ->
  secondary_light_curve k cp {| se_primary := ld_init (Fin u1) (Fin u2); se_secondary := ld_init (Fin v1) (Fin v2); se_ratio := s |}
    o r (Some t) texp os' order (Some false) false = Err ShapeErr.
Proof.
  intros D1 O1 Hn Er HN Ht Hts He Hos Hor. destruct (flip_system k n x xs os o kok sys Ho r rs Hr Hr0) as (o2 & os2 & Hf & sys2 & F2).
  destruct (kepler_answers k n x xs os o cp kok sys Ho) as [A1 B1]. destruct (kepler_answers k n _ _ os2 o2 cp kok sys2 Hf) as [A2 B2].
  assert (N1 : forall j, (j < n)%nat -> o_r_star (os j) <> 0) by (intros j Hj; assert (K := ph_r_star _ (sy_phys _ _ _ _ _ sys j Hj)); lra).
  assert (EX : exists X, get_light_curve (ld_init (Fin u1) (Fin u2)) (Some (kep_api k cp o)) (Some r) (Some t) texp os' order (Some false) false = Ok X).
  { destruct texp as [e|].
    - destruct (stencil_exists os' order Hos Hor) as (nodes & weights & St).
      destruct (lc_exposed u1 u2 _ false n _ _ r rs N t ts e es os' order nodes weights D1 A1 B1 N1 (one_each_elements n r rs O1 Hr) Ht Hts He St) as (X & E & _). exists X. exact E.
    - destruct (lc_plain u1 u2 _ false n _ _ r rs N t ts os' order D1 A1 B1 N1 (one_each_elements n r rs O1 Hr) Ht Hts) as (X & E & _). exists X. exact E. }
  destruct EX as (X & EX).
  unfold secondary_light_curve. rewrite Hf. cbn [rbind se_primary se_secondary]. rewrite EX. cbn [rbind].
  assert (M := lc_mismatch (ld_init (Fin v1) (Fin v2)) _ false n _ (o_r_star o) [] N t ts texp es os' order A2 Er ltac:(cbn; lia) HN Ht Hts He Hos Hor).
  match goal with |- rbind ?a _ = _ => replace a with (@Err tens ShapeErr) by (symmetry; exact M) end. reflexivity.
Qed.
End C.

(** ** the mixture *)
Lemma mixture_range f a b : 0 <= f -> Rmin a b <= mixture f a b <= Rmax a b.
Proof.
  intro H. unfold mixture. assert (P : 0 < 1 + f) by lra.
  assert (Q : Rmin a b <= a /\ Rmin a b <= b) by (split; [apply Rmin_l|apply Rmin_r]). assert (Q' : a <= Rmax a b /\ b <= Rmax a b) by (split; [apply Rmax_l|apply Rmax_r]).
  split; apply (Rmult_le_reg_r (1 + f)); try exact P; unfold Rdiv; rewrite Rmult_assoc, Rinv_l, Rmult_1_r by lra; nra.
Qed.
Lemma mixture_zero f : 0 <= f -> mixture f 0 0 = 0.
Proof. intro H. unfold mixture. field. lra. Qed.
Lemma mixture_dark a b : mixture 0 a b = a.
Proof. unfold mixture. field. Qed.
Lemma eclipse_limits : forall u1 u2 v1 v2 f P r rst, disk_flux u1 u2 <> 0 -> disk_flux v1 v2 <> 0 -> 0 <= f -> 0 < r -> 0 < rst ->
  let a := flux_at u1 u2 P r rst in let b := flux_at v1 v2 (opposite P) rst r in
  (a = 0 \/ b = 0) /\ Rmin a b <= mixture f a b <= Rmax a b /\
  (bright u1 u2 -> bright v1 v2 -> -1 <= mixture f a b <= 0) /\
  (~ overlaps P r rst -> ~ overlaps (opposite P) rst r -> mixture f a b = 0) /\
  mixture 0 a b = a.
Proof.
  intros u1 u2 v1 v2 f P r rst D1 D2 Hf Hr Hs a b. assert (M := mixture_range f a b Hf). split; [|split; [exact M|split; [|split]]].
  - destruct (Rlt_dec 0 (vz P)) as [H|H].
    + right. apply not_overlap; try assumption; [lra|]. intros [K _]. unfold opposite, vz in K. cbn in K. unfold vz in H. lra.
    + left. apply not_overlap; try assumption; [lra|]. intros [K _]. contradiction.
  - intros B1 B2. assert (R1 := rel_flux_range u1 u2 (sqrt (vx P * vx P + vy P * vy P) / rst) (r / rst) (vz P / rst) B1 D1).
    assert (R2 := rel_flux_range v1 v2 (sqrt (vx (opposite P) * vx (opposite P) + vy (opposite P) * vy (opposite P)) / r) (rst / r) (vz (opposite P) / r) B2 D2).
    change (-1 <= a <= 0) in R1. change (-1 <= b <= 0) in R2. split.
    + apply Rle_trans with (Rmin a b); [apply Rmin_glb; lra|apply M].
    + apply Rle_trans with (Rmax a b); [apply M|apply Rmax_lub; lra].
  - intros N1 N2. unfold a, b. rewrite !not_overlap by (try assumption; lra). apply mixture_zero. exact Hf.
  - apply mixture_dark.
Qed.
Lemma coefficients_of : forall up us s dp ds, ash up = Ok [dp] -> ash us = Ok [ds] -> (2 <= dp)%nat -> (2 <= ds)%nat ->
  secondary_init up us s = Ok {| se_primary := ld_init (aget up (at_planet 0)) (aget up (at_planet 1));
                                 se_secondary := ld_init (aget us (at_planet 0)) (aget us (at_planet 1)); se_ratio := s |}.
Proof.
  intros up us s dp ds E1 E2 H1 H2. unfold secondary_init, first_two. rewrite E1, E2.
  destruct (Nat.ltb_spec dp 2); [lia|]. destruct (Nat.ltb_spec ds 2); [lia|]. reflexivity.
Qed.
Lemma second_example : exists os o, disk_flux (3 / 10) (2 / 10) <> 0 /\ bright (3 / 10) (2 / 10) /\ consts_ok ek /\
  system ek 1 (ex_sys_args 1 ex_bs) (fun j => ex_b_args (ex_bs j)) os /\ kep_init ek (ex_sys_args 1 ex_bs) = Ok o /\
  planet_values 1 (scalar (1 / 10)) (fun _ => 1 / 10) /\ one_each 1 (scalar (1 / 10)) /\ one_each 1 (o_r_star o) /\
  is_vector 3 (vector 3 INR) /\ (forall m, (m < 3)%nat -> aget (vector 3 INR) (at_time m) = Fin (INR m)) /\
  (forall j, (j < 1)%nat -> ka_ecc (ex_b_args (ex_bs j)) = None /\ o_r_star (os j) + 1 / 10 < o_a (os j) /\ 0 <= o_sin_incl (os j)).
Proof.
  destruct (ex_b 0 ltac:(lra)) as (o0 & A1 & A2 & A3 & A4 & A5 & A6 & A7 & A8 & A9 & A10 & A11).
  assert (S : system ek 1 (ex_sys_args 1 ex_bs) (fun j => ex_b_args (ex_bs j)) (fun _ => o0)).
  { constructor.
    - lia.
    - apply ex_sys_planet.
    - intros [|j] Hj; [|lia]; reflexivity.
    - intros [|j] Hj; [|lia]; assumption.
    - intros j Hj; assumption.
    - intros j Hj; left; reflexivity. }
  destruct (system_orbit _ _ _ _ _ ek_ok S) as (o & Ho & _). exists (fun _ => o0), o.
  split; [apply disk_example|]. split; [apply kipping_bright; lra|]. split; [exact ek_ok|]. split; [exact S|]. split; [exact Ho|].
  split; [apply scalar_values|]. split; [right; split; reflexivity|].
  split; [destruct (proj2 (proj1 (rstar_numbers ek 1 _ _ _ o ek_ok S Ho))) as [E|E]; [right; split; [reflexivity|exact E]|left; exact E]|].
  split; [apply vector_is|]. split; [apply vector_at|]. intros [|j] Hj; [|lia]. split; [reflexivity|]. split; [rewrite A9; lra|exact A11].
Qed.
Lemma many_example : exists os o, consts_ok ek /\ system ek 2 (ex_sys_args 2 ex_bs) (fun j => ex_b_args (ex_bs j)) os /\
  kep_init ek (ex_sys_args 2 ex_bs) = Ok o /\ ash (o_r_star o) = Ok [] /\
  planet_values 2 (vector 2 (fun _ => 1 / 10)) (fun _ => 1 / 10) /\ one_each 2 (vector 2 (fun _ => 1 / 10)).
Proof.
  destruct ex_system as (os & S & F). destruct (kep_init ek (ex_sys_args 2 ex_bs)) as [o|] eqn:E; [|discriminate E].
  exists os, o. split; [exact ek_ok|]. split; [exact S|]. split; [reflexivity|].
  split; [apply (f_equal (fun v => match v with Ok w => ash (o_r_star w) | Err _ => Err ValueError end)) in E; cbn in E; symmetry; exact E|].
  split; [split; [apply vector_pp|intros [|[|j]] Hj; [reflexivity|reflexivity|lia]]|]. left; reflexivity.
Qed.
Lemma coefficients_few : forall up us s dp ds, ash up = Ok [dp] -> ash us = Ok [ds] -> (dp < 2 \/ ds < 2)%nat -> secondary_init up us s = Err IndexErr.
Proof.
  intros up us s dp ds E1 E2 H. unfold secondary_init, first_two. rewrite E1, E2.
  destruct (Nat.ltb_spec dp 2) as [A|A]; [reflexivity|]. cbn [rbind]. destruct (Nat.ltb_spec ds 2) as [B|B]; [reflexivity|lia].
Qed.
