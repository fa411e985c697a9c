(** * Pairs of systems that look the same *)
From Coq Require Import Reals List Bool Arith ZArith Lra Lia Psatz.
From Verif Require Import Num CoreOps Inst CoreFlux M_units M_kepler M_fin M_tensor M_simple M_ttv M_limbdark M_secondary
  Spec_orbit Spec_params Spec_array Spec_light Spec_secondary Spec_delay Spec_sym
  L_real L_kepop L_orbit L_params3 L_fl L_fl2 L_fl3 L_tens L_shape L_shapeS L_transit3 L_transit4 L_array L_motion L_pmotion
  L_reshape L_light1 L_light2 L_light3 L_light4 L_light7 L_light8 L_second L_second2 L_delay L_delay2 L_sym.
Import ListNotations.
Local Notation length := List.length.
Open Scope R_scope.

Section P.
Variables (k : consts) (n N : nat).
Variables (x x' : kargs tens) (xs xs' : nat -> kargs R) (os os' : nat -> orbit R) (o o' : orbit tens).
Hypothesis kok : consts_ok k.
Hypothesis sys : system k n x xs os.
Hypothesis sys' : system k n x' xs' os'.
Hypothesis Ho : kep_init k x = Ok o.
Hypothesis Ho' : kep_init k x' = Ok o'.
Variables (t t' : tens) (ts ts' : nat -> R).
Hypothesis Ht : is_vector N t.
Hypothesis Hts : forall m, (m < N)%nat -> aget t (at_time m) = Fin (ts m).
Hypothesis Ht' : is_vector N t'.
Hypothesis Hts' : forall m, (m < N)%nat -> aget t' (at_time m) = Fin (ts' m).
Variables (rs rs' : nat -> R).
Definition same_mask (cp : fl -> fl -> fl -> fl -> fl -> fl -> fl -> fl * fl * fl) : Prop := forall m j e, (m < N)%nat -> (j < n)%nat ->
  transit_mask (fin_orbit (os j)) (kep_warp (fin_orbit (os j))) cp (Fin (ts m)) (Fin (rs j)) e
  = transit_mask (fin_orbit (os' j)) (kep_warp (fin_orbit (os' j))) cp (Fin (ts' m)) (Fin (rs' j)) e.

Lemma pair_in_transit cp r r' te es ld : planet_values n r rs -> planet_values n r' rs' -> opt_values n te es -> same_mask cp ->
  oa_in_transit (kep_api k (lift_cp cp) o) t r te ld = oa_in_transit (kep_api k (lift_cp cp) o') t' r' te ld.
Proof.
  intros Hr Hr' He M. apply (mask_same k n N x xs os x' xs' os' r rs r' rs' te es t ts t' ts' cp o o' ld); try assumption.
  intros m j Hm Hj. apply M; assumption.
Qed.

Definition same_flux (u1 u2 : R) (ld : bool) : Prop := forall m j y, (m < N)%nat -> (j < n)%nat ->
  flux_at u1 u2 (pos k (os j) Relative (ts m + y) None ld) (rs j) (o_r_star (os j))
  = flux_at u1 u2 (pos k (os' j) Relative (ts' m + y) None ld) (rs' j) (o_r_star (os' j)).

Lemma pair_light u1 u2 cp r r' texp es osam order use ld :
  disk_flux u1 u2 <> 0 -> elements n r rs -> elements n r' rs' -> opt_exposures N texp es ->
  (ld = true -> forall j, (j < n)%nat -> slow k (os j) /\ slow k (os' j)) ->
  same_flux u1 u2 ld ->
  (use = Some false \/ ld = true \/ (exists e, texp = one_texp e) /\ same_mask cp) ->
  same_light n N
    (get_light_curve (ld_init (Fin u1) (Fin u2)) (Some (kep_api k (lift_cp cp) o)) (Some r) (Some t) texp osam order use ld)
    (get_light_curve (ld_init (Fin u1) (Fin u2)) (Some (kep_api k (lift_cp cp) o')) (Some r') (Some t') texp osam order use ld).
Proof.
  intros Hd Hr Hr' He Hl Hf HM.
  destruct (kepler_answers k n x xs os o (lift_cp cp) kok sys Ho) as [HA Hs]. destruct (kepler_answers k n _ _ _ _ (lift_cp cp) kok sys' Ho') as [HA' Hs'].
  assert (Q : answers (kep_api k (lift_cp cp) o) ld n (fun j t => pos k (os j) Relative t None ld) /\ answers (kep_api k (lift_cp cp) o') ld n (fun j t => pos k (os' j) Relative t None ld)).
  { destruct ld; [|split; assumption]. split.
    - apply (delay_answers k n x xs os o _ kok sys Ho). intros j Hj. apply (Hl eq_refl j Hj).
    - apply (delay_answers k n _ _ _ _ _ kok sys' Ho'). intros j Hj. apply (Hl eq_refl j Hj). }
  destruct Q as [Q Q'].
  apply (light_same u1 u2 _ _ ld n _ _ _ _ r r' rs rs' N t t' ts ts' texp es osam order use Hd Q Q' Hs Hs'); try assumption.
  - intros j Hj. assert (P := ph_r_star _ (sy_phys _ _ _ _ _ sys j Hj)). lra.
  - intros j Hj. assert (P := ph_r_star _ (sy_phys _ _ _ _ _ sys' j Hj)). lra.
  - destruct HM as [HM|[->|[[e ->] HM]]]; [left; exact HM|right; reflexivity|right].
    apply (pair_in_transit cp (flat_radii r) (flat_radii r') (one_texp e) (fun _ => pad_of e)); [apply radii_flat, Hr|apply radii_flat, Hr'|apply one_opt|exact HM].
  - intros nodes weights _ m j Hm Hj. apply mean_same. intro y. apply Hf; assumption.
Qed.
End P.

(** all of one flipped system *)
Section F.
Variables (k : consts) (n N : nat).
Variables (x x' : kargs tens) (xs xs' : nat -> kargs R) (os os' : nat -> orbit R) (o o' : orbit tens).
Hypothesis kok : consts_ok k.
Hypothesis sys : system k n x xs os.
Hypothesis sys' : system k n x' xs' os'.
Hypothesis Ho : kep_init k x = Ok o.
Hypothesis Ho' : kep_init k x' = Ok o'.
Variables (t t' : tens) (ts ts' : nat -> R).
Hypothesis Ht : is_vector N t.
Hypothesis Hts : forall m, (m < N)%nat -> aget t (at_time m) = Fin (ts m).
Hypothesis Ht' : is_vector N t'.
Hypothesis Hts' : forall m, (m < N)%nat -> aget t' (at_time m) = Fin (ts' m).
Variables (r r' : tens) (rs rs' : nat -> R).
Hypothesis Hr : planet_values n r rs.
Hypothesis Hr' : planet_values n r' rs'.
Hypothesis Hr0 : forall j, (j < n)%nat -> 0 < rs j.
Hypothesis Hr0' : forall j, (j < n)%nat -> 0 < rs' j.
Hypothesis O1 : one_each n r.
Hypothesis O1' : one_each n r'.
Hypothesis O2 : one_each n (o_r_star o).
Hypothesis O2' : one_each n (o_r_star o').
Hypothesis Kr : forall j, (j < n)%nat -> rs' j / o_r_star (os' j) = rs j / o_r_star (os j).

Lemma pair_secondary u1 u2 v1 v2 s ss cp texp es osam order use ld :
  disk_flux u1 u2 <> 0 -> disk_flux v1 v2 <> 0 ->
  planet_values n s ss -> (forall j, (j < n)%nat -> 0 <= ss j) -> opt_exposures N texp es ->
  (ld = true -> forall j, (j < n)%nat -> slow k (os j) /\ slow k (os' j)) ->
  same_flux k n N os os' ts ts' rs rs' u1 u2 ld ->
  (use = Some false \/ ld = true \/ (exists e, texp = one_texp e) /\ same_mask n N os os' ts ts' rs rs' cp) ->
  (forall os2 os2', (forall j, (j < n)%nat -> flip k (os j) (rs j) = Ok (os2 j) /\ flip k (os' j) (rs' j) = Ok (os2' j)) ->
    same_flux k n N os2 os2' ts ts' (fun j => o_r_star (os j)) (fun j => o_r_star (os' j)) v1 v2 ld /\
    (use = Some false \/ ld = true \/ (exists e, texp = one_texp e) /\ same_mask n N os2 os2' ts ts' (fun j => o_r_star (os j)) (fun j => o_r_star (os' j)) cp)) ->
  let S := {| se_primary := ld_init (Fin u1) (Fin u2); se_secondary := ld_init (Fin v1) (Fin v2); se_ratio := s |} in
  same_light n N (secondary_light_curve k (lift_cp cp) S o r (Some t) texp osam order use ld) (secondary_light_curve k (lift_cp cp) S o' r' (Some t') texp osam order use ld).
Proof.
  intros D1 D2 Hs Hs0 He Hl Hf Hm H2 S.
  destruct (flip_system k n x xs os o kok sys Ho r rs Hr Hr0) as (o2 & os2 & F2 & sys2 & _).
  destruct (flip_system k n x' xs' os' o' kok sys' Ho' r' rs' Hr' Hr0') as (o2' & os2' & F2' & sys2' & _).
  destruct (H2 os2 os2') as [Hf2 Hm2].
  { intros j Hj. split; [apply (sy_init _ _ _ _ _ sys2 j Hj)|apply (sy_init _ _ _ _ _ sys2' j Hj)]. }
  apply (second_same k n x xs os o x' xs' os' o' r rs r' rs' o2 o2' (lift_cp cp) u1 u2 v1 v2 s ss N t t' texp osam order use ld); try assumption; cbn [se_primary se_secondary].
  - apply (pair_light k n N x x' xs xs' os os' o o' kok sys sys' Ho Ho' t t' ts ts' Ht Hts Ht' Hts' rs rs' u1 u2 cp r r' texp es); try assumption; apply one_each_elements; assumption.
  - apply (pair_light k n N _ _ _ _ os2 os2' o2 o2' kok sys2 sys2' F2 F2' t t' ts ts' Ht Hts Ht' Hts' (fun j => o_r_star (os j)) (fun j => o_r_star (os' j)) v1 v2 cp _ _ texp es); try assumption.
    + apply one_each_elements; [assumption|]. apply (rstar_numbers k n x xs os o kok sys Ho).
    + apply one_each_elements; [assumption|]. apply (rstar_numbers k n x' xs' os' o' kok sys' Ho').
    + intros El j Hj. split.
      * apply (flip_slow k (xs j) (os j) (rs j) (os2 j) kok (sy_init _ _ _ _ _ sys j Hj) (sy_phys _ _ _ _ _ sys j Hj) (Hr0 j Hj)); [|apply Hl; assumption]. exact (sy_init _ _ _ _ _ sys2 j Hj).
      * apply (flip_slow k (xs' j) (os' j) (rs' j) (os2' j) kok (sy_init _ _ _ _ _ sys' j Hj) (sy_phys _ _ _ _ _ sys' j Hj) (Hr0' j Hj)); [|apply Hl; assumption]. exact (sy_init _ _ _ _ _ sys2' j Hj).
Qed.
End F.
