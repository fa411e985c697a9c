(** * Rounding errors of light curves: KeplerianOrbit *)
From Coq Require Import Reals Lra Lia Psatz Bool List Arith ZArith.
From Coquelicot Require Import Coquelicot.
From Verif Require Import Num CoreOps Inst CoreFlux M_units M_kepler M_fin M_tensor M_simple M_limbdark Spec_orbit Spec_params Spec_array Spec_light Spec_undef Spec_dist Spec_lip Spec_accuracy Spec_float Spec_float2 Spec_float3 Spec_float5 Spec_float6
  L_real L_light1 L_light2 L_light3 L_light5 L_light7 L_lip2 L_lip3 L_dist3 L_undef L_float L_float2 L_float3 L_float4 L_float5 L_float6 L_float13 L_float15 L_float16 L_float17 L_float18 L_float19 L_float20 L_float25 L_float26.
Import ListNotations.
Local Notation length := List.length.
Open Scope R_scope.

Section Flux.
Variables u1 u2 : R.
Hypothesis Hlaw : 0 <= u1 /\ u1 + u2 <= 1 /\ 0 <= u1 + 2 * u2.
Variables (r rs : R).
Hypothesis Hr : 0 <= r.
Hypothesis Hs : 0 < rs.

Lemma law_dark : disk_flux u1 u2 <> 0.
Proof. rewrite (disk_is u1 u2). assert (D' := dd_range u1 u2 ltac:(tauto) ltac:(tauto) ltac:(tauto)). assert (HP := PI_RGT_0). apply Rmult_integral_contrapositive_currified; lra. Qed.
Lemma behind_none (p : R * R * R) : vz p <= 0 -> flux_at u1 u2 p r rs = 0.
Proof.
  intro H. unfold flux_at. apply rel_flux_out; [exact (law_dark)|]. right. unfold Rdiv. assert (K := Rinv_0_lt_compat rs Hs). nra.
Qed.
Lemma outside_none (p : R * R * R) : rs + r <= sqrt (vx p * vx p + vy p * vy p) -> flux_at u1 u2 p r rs = 0.
Proof.
  intro H. unfold flux_at. apply rel_flux_out; [exact (law_dark)|]. left. rewrite !Rabs_pos_eq by (apply Rdiv_le_0_compat; [first [lra|apply sqrt_pos]|lra]).
  apply (Rmult_le_reg_r rs); [exact Hs|]. replace ((1 + r / rs) * rs) with (rs + r) by (field; lra). replace (sqrt (vx p * vx p + vy p * vy p) / rs * rs) with (sqrt (vx p * vx p + vy p * vy p)) by (field; lra). exact H.
Qed.
Lemma front_lip (p q : R * R * R) : 0 < vz p -> 0 < vz q -> Rabs (flux_at u1 u2 p r rs - flux_at u1 u2 q r rs) <= 32 * (r / rs * (Rabs (sqrt (vx p * vx p + vy p * vy p) - sqrt (vx q * vx q + vy q * vy q)) / rs)).
Proof.
  intros Hp Hq. unfold flux_at. set (d := sqrt (vx p * vx p + vy p * vy p)). set (d' := sqrt (vx q * vx q + vy q * vy q)). assert (D0 : 0 <= d) by apply sqrt_pos. assert (D1 : 0 <= d') by apply sqrt_pos. clearbody d d'.
  eapply Rle_trans; [apply (rel_lip u1 u2 _ _ _ _ _ (law_dark)); apply Rdiv_lt_0_compat; assumption|].
  assert (W := weight_8 u1 u2 ltac:(tauto) ltac:(tauto) ltac:(tauto)). assert (R0 : 0 <= r / rs) by (apply Rdiv_le_0_compat; lra).
  rewrite (Rabs_pos_eq (r / rs)), (Rabs_pos_eq (d / rs)), (Rabs_pos_eq (d' / rs)) by (try assumption; apply Rdiv_le_0_compat; lra).
  replace (d / rs - d' / rs) with ((d - d') * / rs) by (field; lra). rewrite Rabs_mult, (Rabs_pos_eq (/ rs)) by (left; apply Rinv_0_lt_compat; exact Hs).
  change (Rabs (d - d') * / rs) with (Rabs (d - d') / rs). assert (Q : 0 <= Rabs (d - d') / rs) by (apply Rdiv_le_0_compat; [apply Rabs_pos|exact Hs]).
  set (q' := Rabs (d - d') / rs) in *. clearbody q'. set (p' := r / rs) in *. clearbody p'. assert (M := Rmult_le_pos _ _ R0 Q). nra.
Qed.

(** far from the star, a small error of the position is a small error of the flux *)
Lemma flux_stable p q E L : near3 q p E -> 0 <= E -> 0 <= L -> 16 / 25 * (L * L) <= vx p * vx p + vy p * vy p + vz p * vz p -> r + rs + 3 * E < 4 / 5 * L ->
  Rabs (flux_at u1 u2 q r rs - flux_at u1 u2 p r rs) <= 32 * (r / rs * (2 * E / rs)).
Proof.
  intros (N1 & N2 & N3) HE HL HD HF. fold (vx q) (vx p) in N1. fold (vy q) (vy p) in N2. fold (vz q) (vz p) in N3.
  assert (R0 : 0 <= r / rs) by (apply Rdiv_le_0_compat; lra).
  assert (HH := hypot_diff (vx q) (vy q) (vx p) (vy p)).
  assert (Nn : 0 <= 32 * (r / rs * (2 * E / rs))) by (apply Rmult_le_pos; [lra|]; apply Rmult_le_pos; [exact R0|]; apply Rdiv_le_0_compat; lra).
  assert (Zz : Rabs (vz p) <= E -> 4 / 5 * L - E <= sqrt (vx p * vx p + vy p * vy p)).
  { intro A. rewrite <- (sqrt_square (4 / 5 * L - E)) by lra. apply sqrt_le_1_alt. apply Rabs_le_between in A. assert (vz p * vz p <= E * E) by nra. nra. }
  apply Rabs_le_between in N3.
  destruct (Rlt_dec 0 (vz p)) as [h|h]; destruct (Rlt_dec 0 (vz q)) as [h'|h'].
  - eapply Rle_trans; [apply front_lip; assumption|]. apply Rmult_le_compat_l; [lra|]. apply Rmult_le_compat_l; [exact R0|]. apply Rmult_le_compat_r; [left; apply Rinv_0_lt_compat; exact Hs|]. lra.
  - rewrite (behind_none q) by lra. rewrite (outside_none p); [rewrite Rminus_0_r, Rabs_R0; exact Nn|]. assert (K := Zz ltac:(apply Rabs_le; lra)). lra.
  - rewrite (behind_none p) by lra. rewrite (outside_none q); [rewrite Rminus_0_r, Rabs_R0; exact Nn|]. assert (K := Zz ltac:(apply Rabs_le; lra)). apply Rabs_le_between in HH. lra.
  - rewrite !behind_none by lra. rewrite Rminus_0_r, Rabs_R0. exact Nn.
Qed.
End Flux.

Section V.
Variable u : R.
Variable rd : rounder.
Hypothesis Acc : accurate u rd.
Hypothesis Zero : exact_zero rd.
Variable eps : R.
Variable F : FluxOp.
Hypothesis HF : solves eps F.
Variables u1 u2 : R.
Hypothesis Hlaw : physical_law (intensity u1 u2).
Let law := proj1 (law_iff u1 u2) Hlaw.
Variable k : consts.
Hypothesis kok : consts_ok k.
Local Notation NR := (rounded rd).
Local Notation place o t := (@get_relative_position R bool NR k o (@kep_warp R bool NR o) t None false).
Local Notation exact o t := (@get_relative_position R bool NumR k o (@kep_warp R bool NumR o) t None false).

Lemma machine_point x o r t : machine_orbit u rd k x o -> 0 <= r -> far_enough u o r t ->
  Rabs (flux_at u1 u2 (place o t) r (o_r_star o) - flux_at u1 u2 (exact o t) r (o_r_star o)) <= 32 * (r / o_r_star o * (2 * motion_error u o t / o_r_star o)).
Proof.
  intros [Hi Hs Hc He Hsn Hcs Hw] Hr [Sm Far]. assert (M := proj1 (proj1 (motion u rd Acc k x o kok Hi Hs Zero Hc He Hsn Hcs) t Sm)). fold (motion_error u o t) in M.
  assert (O := init_oriented u rd Acc k x o Hi He Hsn Hcs). assert (Hn := n_positive u rd Acc k x o kok Hi Hs). assert (Sl := slack_1 u o O). destruct Hs as (Ha & _ & Hst & _).
  apply (flux_stable u1 u2 law r (o_r_star o) Hr Hst _ _ (motion_error u o t) (o_a o / slack o) M).
  - destruct M as (M & _). eapply Rle_trans; [apply Rabs_pos|exact M].
  - apply Rdiv_le_0_compat; lra.
  - apply (exact_distance u k o t Ha O); [exact (init_inclination u rd Acc k x o Hi)|exact (init_periastron u rd Acc k x o Hi Hw)|exact (init_node u rd Acc k x o Hi)].
  - exact Far.
Qed.
Lemma machine_finite x o r t : machine_orbit u rd k x o -> far_enough u o r t -> placeF rd k o (Fin t) = fin3 (place o t).
Proof.
  intros [Hi Hs Hc He Hsn Hcs Hw] [Sm _]. apply (placeF_is u rd Acc Zero k o t); [exact (init_oriented u rd Acc k x o Hi He Hsn Hcs)|exact (n_positive u rd Acc k x o kok Hi Hs)|exact Sm].
Qed.

Variables (n : nat) (o : orbit tens) (xs : nat -> kargs R) (os : nat -> orbit R) (mask : tens -> tens -> option tens -> bool -> res (list nat)).
Hypothesis HO : array_orbit n o os.
Hypothesis HM : forall j, (j < n)%nat -> machine_orbit u rd k (xs j) (os j).
Variables (r : tens) (rs : nat -> R).
Hypothesis Hr : elements n r rs.
Hypothesis Pr : forall j, (j < n)%nat -> 0 <= rs j.
Variables (N : nat) (t : tens) (ts : nat -> R).
Hypothesis Ht : is_vector N t.
Hypothesis Vt : forall m, (m < N)%nat -> aget t (at_time m) = Fin (ts m).
Local Notation rst j := (o_r_star (os j)).
Let Pst j (Hj : (j < n)%nat) : 0 < rst j := proj1 (proj2 (proj2 (mo_sizes _ _ _ _ _ (HM j Hj)))).

Lemma kepler_curve osam order : (forall m j, (m < N)%nat -> (j < n)%nat -> far_enough u (os j) (rs j) (ts m)) ->
  table_near n N (computed_curve rd F u1 u2 (Some (computed_kepler rd k o mask)) (Some r) (Some t) None osam order (Some false) false)
    (fun m j => flux_at u1 u2 (exact (os j) (ts m)) (rs j) (rst j))
    (fun m j => flux_error u eps + distance_error u (rs j / rst j) (2 * motion_error u (os j) (ts m) / rst j)).
Proof.
  intro Far. destruct Hr as ((sr & Sr & Prr) & Vr). destruct (stencil_seven) as (nodes & weights & St). destruct (kepler_answersQ rd k n o os mask HO) as [HA HS].
  assert (Ft : forall m, (m < N)%nat -> finite (aget t (at_time m))) by (intros m Hm; exists (ts m); apply Vt; exact Hm).
  destruct (plainM rd F (computed_law rd u1 u2) (computed_kepler rd k o mask) false n _ _ HA HS r sr Sr Prr N t None (fun _ => Fin 0) 7 0 nodes weights Ht Ft
    (fun _ _ => ex_intro _ 0 eq_refl) (fun _ => eq_refl) St) as (X & EX & SX & VX).
  assert (G : forall m j, (m < N)%nat -> (j < n)%nat -> exists w, aget X (at_tp m j) = Fin w /\ Rabs (w - flux_at u1 u2 (exact (os j) (ts m)) (rs j) (rst j)) <= flux_error u eps + distance_error u (rs j / rst j) (2 * motion_error u (os j) (ts m) / rst j)).
  { intros m j Hm Hj. rewrite VX by assumption. cbn [rowM]. rewrite Vt by exact Hm. assert (Fr := Far m j Hm Hj).
    destruct (flux_point u eps rd Acc F HF u1 u2 law (fun j t => place (os j) t) (fun j => rst j) rs j (ts m) (Pst j Hj) (Pr j Hj)) as (w & Ew & Dw). exists w. split.
    - rewrite <- Ew. unfold fluxM. rewrite Vr by exact Hj. rewrite (machine_finite (xs j) (os j) (rs j) (ts m) (HM j Hj) Fr). reflexivity.
    - assert (S := machine_point (xs j) (os j) (rs j) (ts m) (HM j Hj) (Pr j Hj) Fr). cbv beta in Dw.
      set (f1 := flux_at u1 u2 (place (os j) (ts m)) (rs j) (rst j)) in *. set (f2 := flux_at u1 u2 (exact (os j) (ts m)) (rs j) (rst j)) in *. clearbody f1 f2.
      replace (w - f2) with ((w - f1) + (f1 - f2)) by ring. eapply Rle_trans; [apply Rabs_triang|]. unfold distance_error in *. set (q := 2 * _ / _) in *. clearbody q. lra. }
  exists X, (fun m j => value (aget X (at_tp m j))). split; [exact EX|]. split.
  - split; [exact SX|]. intros m j Hm Hj. destruct (G m j Hm Hj) as (w & -> & _). reflexivity.
  - intros m j Hm Hj. destruct (G m j Hm Hj) as (w & -> & Dw). exact Dw.
Qed.
End V.
