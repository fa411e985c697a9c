(** * Rounding errors of light curves: the theorems *)
From Coq Require Import Reals List Bool Arith ZArith Lra Lia Psatz.
From Verif Require Import Num CoreOps Inst CoreFlux M_units M_kepler M_fin M_tensor M_simple M_limbdark Spec_orbit Spec_params Spec_array Spec_simple Spec_light Spec_undef Spec_dist Spec_lip Spec_accuracy Spec_float Spec_float2 Spec_float3 Spec_float5
  L_real L_fl L_light1 L_dist3 L_float L_float16 L_float17 L_float18 L_float19 L_float20 L_float21.
Import ListNotations.
Local Notation length := List.length.
Open Scope R_scope.

Lemma flux_float : forall u rd, accurate u rd -> forall eps F, solves eps F -> forall u1 u2, physical_law (intensity u1 u2) ->
  forall b r los i bi ri li, aget b i = Fin bi -> aget r i = Fin ri -> aget los i = Fin li ->
  exists v, aget (computed_flux rd F u1 u2 b r (Some los)) i = Fin v /\ Rabs (v - rel_flux u1 u2 bi ri li) <= flux_error u eps /\ (li <= 0 -> v = 0).
Proof.
  intros u rd Acc eps F HF u1 u2 Hlaw b r los i bi ri li Eb Er El. assert (law := proj1 (law_iff u1 u2) Hlaw).
  unfold computed_flux, compute_light_curve, quad_light_curve. cbn [nsw nlt nlit nzl rounded_tens amap3 amap2 amap alit aget]. rewrite Eb, Er, El. cbn [nlit rounded_fl flt]. rewrite (zero_u u rd Acc).
  unfold rel_flux, Rltb. destruct (Rlt_dec 0 li) as [h|h].
  - destruct (quad_machine u eps rd Acc (proj1 HF) u1 u2 (proj1 law) (proj1 (proj2 law)) (proj2 (proj2 law)) F bi ri HF) as (v & Ev & Dv). exists v. split; [exact Ev|]. split; [exact Dv|lra].
  - exists 0. split; [reflexivity|]. split; [|reflexivity]. rewrite Rminus_0_r, Rabs_R0. unfold flux_error. assert (U := proj1 Acc). assert (E0 := proj1 HF). lra.
Qed.

Lemma curve_float : forall u rd, accurate u rd -> forall eps F, solves eps F -> forall u1 u2, physical_law (intensity u1 u2) ->
  forall A ld n P rst r rs N t ts os order, answers A ld n P -> planet_numbers n (oa_r_star A) rst -> elements n r rs ->
  (forall j, (j < n)%nat -> 0 < rst j /\ 0 <= rs j) -> is_vector N t -> (forall m, (m < N)%nat -> aget t (at_time m) = Fin (ts m)) ->
  table_near n N (computed_curve rd F u1 u2 (Some A) (Some r) (Some t) None os order (Some false) ld)
    (fun m j => flux_at u1 u2 (P j (ts m)) (rs j) (rst j)) (fun m j => flux_error u eps + distance_error u (rs j / rst j) 0).
Proof.
  intros u rd Acc eps F HF u1 u2 Hlaw A ld n P rst r rs N t ts os order HA HS Hr Hp Ht Vt.
  exact (curve_none u eps rd Acc F HF u1 u2 Hlaw A ld n P rst r rs HA HS Hr (fun j Hj => proj1 (Hp j Hj)) (fun j Hj => proj2 (Hp j Hj)) N t ts Ht Vt os order).
Qed.

Lemma curve_float_exposures : forall u rd, accurate u rd -> forall eps F, solves eps F -> forall u1 u2, physical_law (intensity u1 u2) ->
  forall A ld n P rst r rs N t ts e es osam order nodes weights E, answers A ld n P -> planet_numbers n (oa_r_star A) rst -> elements n r rs ->
  (forall j, (j < n)%nat -> 0 < rst j /\ 0 <= rs j) -> is_vector N t -> (forall m, (m < N)%nat -> aget t (at_time m) = Fin (ts m)) ->
  exposures N e es -> stencil osam order = Ok (nodes, weights) ->
  (forall m j x s, (m < N)%nat -> (j < n)%nat -> In x nodes -> Rabs (s - (ts m + es m * x)) <= u * (Rabs (ts m) + 2 * Rabs (es m)) ->
     Rabs (flux_at u1 u2 (P j s) (rs j) (rst j) - flux_at u1 u2 (P j (ts m + es m * x)) (rs j) (rst j)) <= E m j) ->
  table_near n N (computed_curve rd F u1 u2 (Some A) (Some r) (Some t) (Some e) osam order (Some false) ld)
    (fun m j => node_mean nodes weights (fun s => flux_at u1 u2 (P j s) (rs j) (rst j)) (ts m) (es m))
    (fun m j => mean_error u (length nodes) (flux_error u eps + distance_error u (rs j / rst j) 0) + E m j).
Proof.
  intros u rd Acc eps F HF u1 u2 Hlaw A ld n P rst r rs N t ts e es osam order nodes weights E HA HS Hr Hp Ht Vt He St HE.
  exact (curve_exposures u eps rd Acc F HF u1 u2 Hlaw A ld n P rst r rs HA HS Hr (fun j Hj => proj1 (Hp j Hj)) (fun j Hj => proj2 (Hp j Hj)) N t ts Ht Vt e es osam order nodes weights (fun j s => flux_at u1 u2 (P j s) (rs j) (rst j)) E He St HE).
Qed.

Lemma simple_float : forall u rd, accurate u rd -> rd OLit 1 0 1 = 1 -> forall eps F, solves eps F -> forall u1 u2, physical_law (intensity u1 u2) ->
  forall n x xs r rs N t ts os order, simple_system n x xs -> (forall j, (j < n)%nat -> graze_ok u (xs j)) -> elements n r rs ->
  (forall j, (j < n)%nat -> 0 <= rs j <= dflt 0 (sa_ror (xs j)) * dflt 1 (sa_r_star (xs j))) -> is_vector N t -> (forall m, (m < N)%nat -> aget t (at_time m) = Fin (ts m)) ->
  table_near n N (computed_curve rd F u1 u2 (Some (computed_simple rd x)) (Some r) (Some t) None os order (Some false) false)
    (fun m j => flux_at u1 u2 (spos (xs j) (ts m)) (rs j) (dflt 1 (sa_r_star (xs j))))
    (fun m j => flux_error u eps + distance_error u (rs j / dflt 1 (sa_r_star (xs j))) (place_error u (xs j) (ts m) 0 / dflt 1 (sa_r_star (xs j)))).
Proof.
  intros u rd Acc One eps F HF u1 u2 Hlaw n x xs r rs N t ts os order sys K Hr Rr Ht Vt.
  exact (simple_curve u rd Acc One n x xs sys (fun j Hj => proj1 (K j Hj)) (fun j Hj => proj1 (proj2 (K j Hj))) (fun j Hj => proj1 (proj2 (proj2 (K j Hj)))) (fun j Hj => proj2 (proj2 (proj2 (K j Hj)))) eps F HF u1 u2 Hlaw r rs Hr Rr N t ts Ht Vt os order).
Qed.

Lemma simple_float_exposures : forall u rd, accurate u rd -> rd OLit 1 0 1 = 1 -> forall eps F, solves eps F -> forall u1 u2, physical_law (intensity u1 u2) ->
  forall n x xs r rs N t ts e es osam order nodes weights, simple_system n x xs -> (forall j, (j < n)%nat -> graze_ok u (xs j)) -> elements n r rs ->
  (forall j, (j < n)%nat -> 0 <= rs j <= dflt 0 (sa_ror (xs j)) * dflt 1 (sa_r_star (xs j))) -> is_vector N t -> (forall m, (m < N)%nat -> aget t (at_time m) = Fin (ts m)) ->
  exposures N e es -> stencil osam order = Ok (nodes, weights) ->
  table_near n N (computed_curve rd F u1 u2 (Some (computed_simple rd x)) (Some r) (Some t) (Some e) osam order (Some false) false)
    (fun m j => node_mean nodes weights (fun s => flux_at u1 u2 (spos (xs j) s) (rs j) (dflt 1 (sa_r_star (xs j)))) (ts m) (es m))
    (fun m j => mean_error u (length nodes) (flux_error u eps + distance_error u (rs j / dflt 1 (sa_r_star (xs j))) 0)
       + 32 * (rs j / dflt 1 (sa_r_star (xs j)) * (place_error u (xs j) (ts m) (u * (Rabs (ts m) + 3 * Rabs (es m))) / dflt 1 (sa_r_star (xs j))))).
Proof.
  intros u rd Acc One eps F HF u1 u2 Hlaw n x xs r rs N t ts e es osam order nodes weights sys K Hr Rr Ht Vt He St.
  exact (simple_curve_exposures u rd Acc One n x xs sys (fun j Hj => proj1 (K j Hj)) (fun j Hj => proj1 (proj2 (K j Hj))) (fun j Hj => proj1 (proj2 (proj2 (K j Hj)))) (fun j Hj => proj2 (proj2 (proj2 (K j Hj)))) eps F HF u1 u2 Hlaw r rs Hr Rr N t ts Ht Vt e es osam order nodes weights He St).
Qed.
