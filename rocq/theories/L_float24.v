(** * Rounding errors of light curves: the theorems for the default mask *)
From Coq Require Import Reals List Bool Arith ZArith Lra Lia Psatz.
From Coquelicot Require Import Coquelicot.
From Verif Require Import Num CoreOps Inst CoreFlux M_units M_kepler M_fin M_tensor M_simple M_limbdark Spec_orbit Spec_params Spec_array Spec_simple Spec_light Spec_undef Spec_dist Spec_lip Spec_accuracy Spec_float Spec_float2 Spec_float3 Spec_float5
  L_real L_params3 L_fl L_simple L_simple2 L_light1 L_light2 L_light3 L_light4 L_light7 L_lip2 L_lip3 L_dist3 L_undef L_float L_float8 L_float9 L_float15 L_float16 L_float17 L_float18 L_float19 L_float20 L_float21 L_float23.
Import ListNotations.
Local Notation length := List.length.
Open Scope R_scope.

Lemma simple_default : forall u rd, accurate u rd -> rd OLit 1 0 1 = 1 -> forall eps F, solves eps F -> forall u1 u2, physical_law (intensity u1 u2) ->
  forall n x xs r rs N t ts os order, simple_system n x xs -> (forall j, (j < n)%nat -> graze_ok u (xs j)) -> elements n r rs ->
  (forall j, (j < n)%nat -> 0 <= rs j <= dflt 0 (sa_ror (xs j)) * dflt 1 (sa_r_star (xs j)) /\ reach_ok u (xs j) (rs j)) -> is_vector N t -> (forall m, (m < N)%nat -> aget t (at_time m) = Fin (ts m)) ->
  table_near n N (computed_curve rd F u1 u2 (Some (computed_simple rd x)) (Some r) (Some t) None os order None false)
    (fun m j => flux_at u1 u2 (spos (xs j) (ts m)) (rs j) (dflt 1 (sa_r_star (xs j))))
    (fun m j => flux_error u eps + distance_error u (rs j / dflt 1 (sa_r_star (xs j))) (place_error u (xs j) (ts m) 0 / dflt 1 (sa_r_star (xs j)))
       + 32 * (rs j / dflt 1 (sa_r_star (xs j)) * (mask_error u (xs j) (rs j) (ts m) 0 / dflt 1 (sa_r_star (xs j))))).
Proof.
  intros u rd Acc One eps F HF u1 u2 Hlaw n x xs r rs N t ts os order sys G Hr K Ht Vt. assert (law := proj1 (law_iff u1 u2) Hlaw). destruct stencil_seven as (nodes & weights & St).
  refine (masked_near u rd Acc One n x xs sys G r rs Hr (fun j Hj => proj1 (K j Hj)) (fun j Hj => proj2 (K j Hj)) N t ts Ht Vt None (Rle_refl 0) F u1 u2 Hlaw 7 0 nodes weights St
    (fun m j => flux_at u1 u2 (spos (xs j) (ts m)) (rs j) (dflt 1 (sa_r_star (xs j)))) (fun m j => flux_error u eps + distance_error u (rs j / dflt 1 (sa_r_star (xs j))) (place_error u (xs j) (ts m) 0 / dflt 1 (sa_r_star (xs j)))) _ _).
  - intros m j Hm Hj. cbn [one_texp option_map rowM]. destruct (G j Hj) as (ok & Hror & Hb & Hg). destruct (K j Hj) as [Rr _].
    destruct (flux_point u eps rd Acc F HF u1 u2 law (fun j t => computed_position rd (xs j) t) (fun j => dflt 1 (sa_r_star (xs j))) rs j (ts m) (so_r_star _ ok) (proj1 Rr)) as (w & Ew & Dw).
    exists w. split; [rewrite <- Ew; unfold fluxM; rewrite (proj2 Hr j Hj); reflexivity|].
    assert (S := simple_point u rd Acc u1 u2 law (xs j) ok Hror Hb Hg (rs j) Rr (ts m) (ts m) 0). rewrite Rminus_eq_0, Rabs_R0 in S. specialize (S (Rle_refl 0)).
    match goal with |- Rabs (_ - ?b) <= _ => match type of Dw with Rabs (_ - ?a) <= _ => replace (w - b) with ((w - a) + (a - b)) by ring end end. eapply Rle_trans; [apply Rabs_triang|].
    unfold distance_error in *. set (p := place_error _ _ _ _ / _) in *. clearbody p. lra.
  - intros m j Hm Hj Hk. apply (proj2 (mask_small u rd Acc u1 u2 law (xs j) (G j Hj) (rs j) (proj1 (K j Hj)) (proj2 (K j Hj)) (ts m) None (Rle_refl 0))); [exact Hk|]. cbn [dflt]. rewrite Rminus_eq_0, Rabs_R0. lra.
Qed.

Lemma mean_small nodes weights f t e B : length nodes = length weights -> List.Forall (fun v => 0 < v) weights -> (forall x, In x nodes -> Rabs (f (t + e * x)) <= B) ->
  Rabs (node_mean nodes weights f t e) <= B * fold_right Rplus 0 weights.
Proof.
  unfold node_mean. revert weights. induction nodes as [|x nodes IH]; intros [|w weights] HL HW HB; try discriminate HL; cbn [combine map fold_right fst snd]; [rewrite Rabs_R0; lra|].
  injection HL as HL. inversion_clear HW as [|? ? Hw HW']. assert (B1 := HB x (or_introl eq_refl)). assert (B2 := IH weights HL HW' (fun y Hy => HB y (or_intror Hy))).
  eapply Rle_trans; [apply Rabs_triang|]. rewrite Rabs_mult, (Rabs_pos_eq w) by lra. assert (w * Rabs (f (t + e * x)) <= w * B) by (apply Rmult_le_compat_l; lra). lra.
Qed.

Lemma simple_default_exposures : forall u rd, accurate u rd -> rd OLit 1 0 1 = 1 -> forall eps F, solves eps F -> forall u1 u2, physical_law (intensity u1 u2) ->
  forall n x xs r rs N t ts e osam order nodes weights, simple_system n x xs -> (forall j, (j < n)%nat -> graze_ok u (xs j)) -> elements n r rs ->
  (forall j, (j < n)%nat -> 0 <= rs j <= dflt 0 (sa_ror (xs j)) * dflt 1 (sa_r_star (xs j)) /\ reach_ok u (xs j) (rs j)) -> is_vector N t -> (forall m, (m < N)%nat -> aget t (at_time m) = Fin (ts m)) ->
  0 <= e -> stencil osam order = Ok (nodes, weights) ->
  table_near n N (computed_curve rd F u1 u2 (Some (computed_simple rd x)) (Some r) (Some t) (Some (scalar e)) osam order None false)
    (fun m j => node_mean nodes weights (fun s => flux_at u1 u2 (spos (xs j) s) (rs j) (dflt 1 (sa_r_star (xs j)))) (ts m) e)
    (fun m j => mean_error u (length nodes) (flux_error u eps + distance_error u (rs j / dflt 1 (sa_r_star (xs j))) 0)
       + 32 * (rs j / dflt 1 (sa_r_star (xs j)) * (place_error u (xs j) (ts m) (u * (Rabs (ts m) + 3 * Rabs e)) / dflt 1 (sa_r_star (xs j))))
       + 32 * (rs j / dflt 1 (sa_r_star (xs j)) * (mask_error u (xs j) (rs j) (ts m) e / dflt 1 (sa_r_star (xs j))))).
Proof.
  intros u rd Acc One eps F HF u1 u2 Hlaw n x xs r rs N t ts e osam order nodes weights sys G Hr K Ht Vt He St. assert (law := proj1 (law_iff u1 u2) Hlaw).
  destruct (quadrature _ _ _ _ St) as (Ln & _ & _ & Wp & W1 & Nx & _).
  refine (masked_near u rd Acc One n x xs sys G r rs Hr (fun j Hj => proj1 (K j Hj)) (fun j Hj => proj2 (K j Hj)) N t ts Ht Vt (Some e) He F u1 u2 Hlaw osam order nodes weights St
    (fun m j => node_mean nodes weights (fun s => flux_at u1 u2 (spos (xs j) s) (rs j) (dflt 1 (sa_r_star (xs j)))) (ts m) e)
    (fun m j => mean_error u (length nodes) (flux_error u eps + distance_error u (rs j / dflt 1 (sa_r_star (xs j))) 0) + 32 * (rs j / dflt 1 (sa_r_star (xs j)) * (place_error u (xs j) (ts m) (u * (Rabs (ts m) + 3 * Rabs e)) / dflt 1 (sa_r_star (xs j))))) _ _).
  - intros m j Hm Hj. cbn [one_texp option_map rowM dflt]. destruct (G j Hj) as (ok & Hror & Hb & Hg). destruct (K j Hj) as [Rr _].
    destruct (mean_point u eps rd Acc F HF u1 u2 law (fun j t => computed_position rd (xs j) t) (fun j => dflt 1 (sa_r_star (xs j))) rs nodes weights osam order j (ts m) e
      (fun s => flux_at u1 u2 (spos (xs j) s) (rs j) (dflt 1 (sa_r_star (xs j)))) (32 * (rs j / dflt 1 (sa_r_star (xs j)) * (place_error u (xs j) (ts m) (u * (Rabs (ts m) + 3 * Rabs e)) / dflt 1 (sa_r_star (xs j))))) St (so_r_star _ ok) (proj1 Rr)) as (w & Ew & Dw).
    { intros y s Hy Hs. exact (node_point u rd Acc u1 u2 law (xs j) ok Hror Hb Hg (rs j) Rr nodes Nx (ts m) e y s Hy Hs). }
    exists w. split; [rewrite <- Ew; unfold meanM, fluxM; rewrite (proj2 Hr j Hj); reflexivity|exact Dw].
  - intros m j Hm Hj Hk. cbn [dflt] in *. match goal with |- _ <= ?B => rewrite <- (Rmult_1_r B); apply Rle_trans with (B * fold_right Rplus 0 weights); [|rewrite W1; apply Rle_refl] end. apply mean_small; [exact Ln|exact Wp|]. intros y Hy.
    apply (proj2 (mask_small u rd Acc u1 u2 law (xs j) (G j Hj) (rs j) (proj1 (K j Hj)) (proj2 (K j Hj)) (ts m) (Some e) He)); [exact Hk|]. cbn [dflt].
    replace (ts m + e * y - ts m) with (e * y) by ring. assert (By := proj1 (List.Forall_forall _ _) Nx _ Hy). cbv beta in By. rewrite Rabs_mult, (Rabs_pos_eq e) by exact He. assert (Ay : Rabs y <= 1 / 2) by (apply Rabs_le; lra). assert (Q := Rmult_le_compat_l _ _ _ He Ay). lra.
Qed.
