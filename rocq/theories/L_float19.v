(** * Rounding errors of light curves: whole curves *)
From Coq Require Import Reals Lra Lia Psatz Bool List Arith ZArith.
From Verif Require Import Num CoreOps Inst CoreFlux M_units M_kepler M_fin M_tensor M_limbdark Spec_orbit Spec_array Spec_light Spec_undef Spec_dist Spec_lip Spec_accuracy Spec_float Spec_float2 Spec_float3 Spec_float5
  L_real L_flux L_light1 L_light2 L_light3 L_light5 L_light7 L_lip2 L_dist3 L_undef L_float L_float2 L_float13 L_float15 L_float16 L_float17 L_float18.
Import ListNotations.
Local Notation length := List.length.
Open Scope R_scope.

Lemma to_Q A ld n P : answers A ld n P -> answersQ A ld n (fun j t => fin3 (P j (value t))).
Proof.
  intros H s t Et Wt Ft. assert (V : forall i, inside s i -> aget t i = Fin (value (aget t i))) by (intros i Hi; destruct (Ft i Hi) as [v ->]; reflexivity).
  destruct (H s t (fun i => value (aget t i)) Et Wt V) as (x & y & z & sh & E & Es & (A1 & A2) & (B1 & B2) & (C1 & C2)). exists x, y, z, sh.
  split; [exact E|]. split; [exact Es|]. assert (G : forall j w, fin3 (P j w) = (Fin (vx (P j w)), Fin (vy (P j w)), Fin (vz (P j w)))) by (intros j w; destruct (P j w) as [[? ?] ?]; reflexivity).
  split; [|split]; (split; [assumption|]); intros i Hi; rewrite G; cbn [fst snd]; auto.
Qed.

Lemma stencil_seven : exists nodes weights, stencil 7 0 = Ok (nodes, weights).
Proof. eexists _, _. reflexivity. Qed.

Section V.
Variable u eps : R.
Variable rd : rounder.
Hypothesis Acc : accurate u rd.
Variable F : FluxOp.
Hypothesis HF : solves eps F.
Variables u1 u2 : R.
Hypothesis Hlaw : physical_law (intensity u1 u2).
Variables (A : orbit_api) (ld : bool) (n : nat) (P : nat -> R -> R * R * R) (rst : nat -> R) (r : tens) (rs : nat -> R).
Hypothesis HA : answers A ld n P.
Hypothesis Hrst : planet_numbers n (oa_r_star A) rst.
Hypothesis Hr : elements n r rs.
Hypothesis Pst : forall j, (j < n)%nat -> 0 < rst j.
Hypothesis Ps : forall j, (j < n)%nat -> 0 <= rs j.
Variables (N : nat) (t : tens) (ts : nat -> R).
Hypothesis Ht : is_vector N t.
Hypothesis Vt : forall m, (m < N)%nat -> aget t (at_time m) = Fin (ts m).
Let law := proj1 (law_iff u1 u2) Hlaw.

Lemma planet_F : planetF n (oa_r_star A) (fun j => Fin (rst j)).
Proof. exact Hrst. Qed.

Lemma curve_none os order : table_near n N (computed_curve rd F u1 u2 (Some A) (Some r) (Some t) None os order (Some false) ld)
  (fun m j => flux_at u1 u2 (P j (ts m)) (rs j) (rst j)) (fun _ j => flux_error u eps + distance_error u (rs j / rst j) 0).
Proof.
  destruct Hr as ((sr & Sr & Pr) & Vr). destruct (stencil_seven) as (nodes & weights & St).
  assert (Ft : forall m, (m < N)%nat -> finite (aget t (at_time m))) by (intros m Hm; exists (ts m); apply Vt; exact Hm).
  destruct (plainM rd F (computed_law rd u1 u2) A ld n (fun j t => fin3 (P j (value t))) (fun j => Fin (rst j)) (to_Q _ _ _ _ HA) planet_F r sr Sr Pr N t None (fun _ => Fin 0) 7 0 nodes weights Ht Ft
    (fun _ _ => ex_intro _ 0 eq_refl) (fun _ => eq_refl) St) as (X & EX & SX & VX).
  assert (G : forall m j, (m < N)%nat -> (j < n)%nat -> exists w, aget X (at_tp m j) = Fin w /\ Rabs (w - flux_at u1 u2 (P j (ts m)) (rs j) (rst j)) <= flux_error u eps + distance_error u (rs j / rst j) 0).
  { intros m j Hm Hj. rewrite VX by assumption. cbn [rowM]. rewrite Vt by exact Hm.
    destruct (flux_point u eps rd Acc F HF u1 u2 law P rst rs j (ts m) (Pst j Hj) (Ps j Hj)) as (w & Ew & Dw). exists w. split; [|exact Dw]. rewrite <- Ew. unfold fluxM. rewrite Vr by exact Hj. reflexivity. }
  exists X, (fun m j => value (aget X (at_tp m j))). split; [exact EX|]. split.
  - split; [exact SX|]. intros m j Hm Hj. destruct (G m j Hm Hj) as (w & -> & _). reflexivity.
  - intros m j Hm Hj. destruct (G m j Hm Hj) as (w & -> & Dw). exact Dw.
Qed.

Lemma curve_exposures e es osam order nodes weights (g : nat -> R -> R) (E : nat -> nat -> R) : exposures N e es -> stencil osam order = Ok (nodes, weights) ->
  (forall m j x s, (m < N)%nat -> (j < n)%nat -> In x nodes -> Rabs (s - (ts m + es m * x)) <= u * (Rabs (ts m) + 2 * Rabs (es m)) ->
     Rabs (flux_at u1 u2 (P j s) (rs j) (rst j) - g j (ts m + es m * x)) <= E m j) ->
  table_near n N (computed_curve rd F u1 u2 (Some A) (Some r) (Some t) (Some e) osam order (Some false) ld)
    (fun m j => node_mean nodes weights (g j) (ts m) (es m)) (fun m j => (1 + u) ^ (length nodes + 2) * (1 + (flux_error u eps + distance_error u (rs j / rst j) 0)) - 1 + E m j).
Proof.
  intros He St HE. destruct Hr as ((sr & Sr & Pr) & Vr).
  assert (Ft : forall m, (m < N)%nat -> finite (aget t (at_time m))) by (intros m Hm; exists (ts m); apply Vt; exact Hm).
  assert (He' : exposure_values N (Some e) (fun m => Fin (es m))).
  { destruct He as [We [[Se Ve]|[Se Ve]]]; (split; [exact We|]); [left|right]; (split; [exact Se|]); intros; symmetry; auto. }
  destruct (plainM rd F (computed_law rd u1 u2) A ld n (fun j t => fin3 (P j (value t))) (fun j => Fin (rst j)) (to_Q _ _ _ _ HA) planet_F r sr Sr Pr N t (Some e) (fun m => Fin (es m)) osam order nodes weights Ht Ft
    (fun m _ => ex_intro _ (es m) eq_refl) He' St) as (X & EX & SX & VX).
  assert (G : forall m j, (m < N)%nat -> (j < n)%nat -> exists w, aget X (at_tp m j) = Fin w /\ Rabs (w - node_mean nodes weights (g j) (ts m) (es m)) <= (1 + u) ^ (length nodes + 2) * (1 + (flux_error u eps + distance_error u (rs j / rst j) 0)) - 1 + E m j).
  { intros m j Hm Hj. rewrite VX by assumption. cbn [rowM]. rewrite Vt by exact Hm.
    destruct (mean_point u eps rd Acc F HF u1 u2 law P rst rs nodes weights osam order j (ts m) (es m) (g j) (E m j) St (Pst j Hj) (Ps j Hj)) as (w & Ew & Dw). { intros x s Hx Hs. apply HE; assumption. }
    exists w. split; [|exact Dw]. rewrite <- Ew. unfold meanM, fluxM. rewrite Vr by exact Hj. reflexivity. }
  exists X, (fun m j => value (aget X (at_tp m j))). split; [exact EX|]. split.
  - split; [exact SX|]. intros m j Hm Hj. destruct (G m j Hm Hj) as (w & -> & _). reflexivity.
  - intros m j Hm Hj. destruct (G m j Hm Hj) as (w & -> & Dw). exact Dw.
Qed.
End V.
