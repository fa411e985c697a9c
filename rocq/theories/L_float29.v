(** * Rounding errors of light curves of a KeplerianOrbit: summary *)
From Coq Require Import Reals Lra Lia Psatz Bool List Arith ZArith.
From Coquelicot Require Import Coquelicot.
From Verif Require Import Num CoreOps Inst CoreFlux M_units M_kepler M_fin M_tensor M_simple M_limbdark Spec_orbit Spec_params Spec_array Spec_light Spec_undef Spec_dist Spec_lip Spec_accuracy Spec_float Spec_float2 Spec_float3 Spec_float5 Spec_float6
  L_undef L_float15 L_float19 L_float25 L_float27 L_float28.
Import ListNotations.
Local Notation length := List.length.
Open Scope R_scope.

Lemma kepler_float : forall u rd, accurate u rd -> exact_zero rd -> forall eps F, solves eps F -> forall u1 u2, physical_law (intensity u1 u2) ->
  forall k, consts_ok k -> forall n o xs os mask r rs N t ts osam order, array_orbit n o os -> (forall j, (j < n)%nat -> machine_orbit u rd k (xs j) (os j)) ->
  elements n r rs -> (forall j, (j < n)%nat -> 0 <= rs j) -> is_vector N t -> (forall m, (m < N)%nat -> aget t (at_time m) = Fin (ts m)) ->
  (forall m j, (m < N)%nat -> (j < n)%nat -> far_enough u (os j) (rs j) (ts m)) ->
  table_near n N (computed_curve rd F u1 u2 (Some (computed_kepler rd k o mask)) (Some r) (Some t) None osam order (Some false) false)
    (fun m j => flux_at u1 u2 (@get_relative_position R bool NumR k (os j) (@kep_warp R bool NumR (os j)) (ts m) None false) (rs j) (o_r_star (os j)))
    (fun m j => flux_error u eps + distance_error u (rs j / o_r_star (os j)) (2 * motion_error u (os j) (ts m) / o_r_star (os j))).
Proof. intros. eapply kepler_curve; eassumption. Qed.

Lemma kepler_float_exposures : forall u rd, accurate u rd -> exact_zero rd -> forall eps F, solves eps F -> forall u1 u2, physical_law (intensity u1 u2) ->
  forall k, consts_ok k -> forall n o xs os mask r rs N t ts e es osam order nodes weights, array_orbit n o os -> (forall j, (j < n)%nat -> machine_orbit u rd k (xs j) (os j)) ->
  elements n r rs -> (forall j, (j < n)%nat -> 0 <= rs j) -> is_vector N t -> (forall m, (m < N)%nat -> aget t (at_time m) = Fin (ts m)) ->
  exposures N e es -> stencil osam order = Ok (nodes, weights) ->
  (forall m j, (m < N)%nat -> (j < n)%nat -> far_exposed u (os j) (rs j) (ts m) (es m)) ->
  table_near n N (computed_curve rd F u1 u2 (Some (computed_kepler rd k o mask)) (Some r) (Some t) (Some e) osam order (Some false) false)
    (fun m j => node_mean nodes weights (fun s => flux_at u1 u2 (@get_relative_position R bool NumR k (os j) (@kep_warp R bool NumR (os j)) s None false) (rs j) (o_r_star (os j))) (ts m) (es m))
    (fun m j => mean_error u (length nodes) (flux_error u eps + distance_error u (rs j / o_r_star (os j)) 0)
       + 32 * (rs j / o_r_star (os j) * (2 * exposure_error u (os j) (ts m) (es m) / o_r_star (os j)))).
Proof. intros. eapply kepler_curve_exposures; eassumption. Qed.

Lemma kepler_float_masked : forall u rd, accurate u rd -> exact_zero rd -> forall eps F, solves eps F -> forall u1 u2, physical_law (intensity u1 u2) ->
  forall k, consts_ok k -> forall n o xs os mask r rs N t ts osam order inds, array_orbit n o os -> (forall j, (j < n)%nat -> machine_orbit u rd k (xs j) (os j)) ->
  elements n r rs -> (forall j, (j < n)%nat -> 0 <= rs j) -> is_vector N t -> (forall m, (m < N)%nat -> aget t (at_time m) = Fin (ts m)) ->
  (forall a, elements n a rs -> mask t a None false = Ok inds) -> (forall m, In m inds -> (m < N)%nat) ->
  (forall m j, In m inds -> (j < n)%nat -> far_enough u (os j) (rs j) (ts m)) ->
  exists X v, computed_curve rd F u1 u2 (Some (computed_kepler rd k o mask)) (Some r) (Some t) None osam order None false = Ok X /\ light_table n N X v /\
    forall m j, (m < N)%nat -> (j < n)%nat ->
      (In m inds -> Rabs (v m j - flux_at u1 u2 (@get_relative_position R bool NumR k (os j) (@kep_warp R bool NumR (os j)) (ts m) None false) (rs j) (o_r_star (os j)))
         <= flux_error u eps + distance_error u (rs j / o_r_star (os j)) (2 * motion_error u (os j) (ts m) / o_r_star (os j))) /\
      (~ In m inds -> v m j = 0).
Proof.
  intros u rd Acc Zero eps F HF u1 u2 Hlaw k kok n o xs os mask r rs N t ts osam order inds HO HM Hr Pr Ht Vt Hm Hi Far.
  destruct stencil_seven as (nodes & weights & St).
  assert (E : computed_curve rd F u1 u2 (Some (computed_kepler rd k o mask)) (Some r) (Some t) None osam order None false = computed_curve rd F u1 u2 (Some (computed_kepler rd k o mask)) (Some r) (Some t) None 7 0 None false) by reflexivity.
  rewrite E. eapply (kepler_masked u rd Acc F u1 u2 k n o os mask HO r rs Hr N t ts Ht Vt 7 0 nodes weights None (fun _ => 0) inds); try assumption.
  - intro m. reflexivity.
  - intros a Ha. discriminate.
  - intros m j Hmn Hj Hin. eapply (row_none u rd Acc Zero eps F HF u1 u2 Hlaw k kok n xs os HM r rs Hr Pr); [exact Hj|]. apply Far; assumption.
Qed.

Lemma kepler_float_masked_exposure : forall u rd, accurate u rd -> exact_zero rd -> forall eps F, solves eps F -> forall u1 u2, physical_law (intensity u1 u2) ->
  forall k, consts_ok k -> forall n o xs os mask r rs N t ts e osam order nodes weights inds, array_orbit n o os -> (forall j, (j < n)%nat -> machine_orbit u rd k (xs j) (os j)) ->
  elements n r rs -> (forall j, (j < n)%nat -> 0 <= rs j) -> is_vector N t -> (forall m, (m < N)%nat -> aget t (at_time m) = Fin (ts m)) ->
  stencil osam order = Ok (nodes, weights) ->
  (forall a, elements n a rs -> mask t a (Some (scalar e)) false = Ok inds) -> (forall m, In m inds -> (m < N)%nat) ->
  (forall m j, In m inds -> (j < n)%nat -> far_exposed u (os j) (rs j) (ts m) e) ->
  exists X v, computed_curve rd F u1 u2 (Some (computed_kepler rd k o mask)) (Some r) (Some t) (Some (scalar e)) osam order None false = Ok X /\ light_table n N X v /\
    forall m j, (m < N)%nat -> (j < n)%nat ->
      (In m inds -> Rabs (v m j - node_mean nodes weights (fun s => flux_at u1 u2 (@get_relative_position R bool NumR k (os j) (@kep_warp R bool NumR (os j)) s None false) (rs j) (o_r_star (os j))) (ts m) e)
         <= mean_error u (length nodes) (flux_error u eps + distance_error u (rs j / o_r_star (os j)) 0)
            + 32 * (rs j / o_r_star (os j) * (2 * exposure_error u (os j) (ts m) e / o_r_star (os j)))) /\
      (~ In m inds -> v m j = 0).
Proof.
  intros u rd Acc Zero eps F HF u1 u2 Hlaw k kok n o xs os mask r rs N t ts e osam order nodes weights inds HO HM Hr Pr Ht Vt St Hm Hi Far.
  eapply (kepler_masked u rd Acc F u1 u2 k n o os mask HO r rs Hr N t ts Ht Vt osam order nodes weights (Some (scalar e)) (fun _ => e) inds); try assumption.
  - split; [intros i i' Hii; reflexivity|]. left. split; reflexivity.
  - intros a Ha. injection Ha as <-. reflexivity.
  - intros m j Hmn Hj Hin. eapply (row_exposed u rd Acc Zero eps F HF u1 u2 Hlaw k kok n xs os HM r rs Hr Pr _ osam order); [exact St|exact Hj|]. apply Far; assumption.
Qed.
