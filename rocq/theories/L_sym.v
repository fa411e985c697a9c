(** * Light curves that agree *)
From Coq Require Import Reals List Bool Arith ZArith Lra Lia Psatz.
From Verif Require Import Num CoreOps Inst CoreFlux M_units M_kepler M_fin M_tensor M_simple M_ttv M_limbdark M_secondary
  Spec_orbit Spec_params Spec_array Spec_light Spec_secondary Spec_sym
  L_real L_kepop L_orbit L_params3 L_fl L_fl2 L_fl3 L_tens L_shape L_shapeS L_transit3 L_transit4 L_array L_motion L_pmotion
  L_reshape L_light1 L_light2 L_light3 L_light4 L_light7 L_light8 L_second L_second2.
Import ListNotations.
Local Notation length := List.length.
Open Scope R_scope.

Definition flat_radii (r : tens) : tens := areshape (rmap (fun s => [prod s]) (ash r)) r.

(** ** light curves from fluxes *)
Lemma light_same u1 u2 A A' ld n P P' rst rst' r r' rs rs' N t t' ts ts' texp es os order use :
  disk_flux u1 u2 <> 0 ->
  answers A ld n P -> answers A' ld n P' ->
  planet_numbers n (oa_r_star A) rst -> planet_numbers n (oa_r_star A') rst' ->
  (forall j, (j < n)%nat -> rst j <> 0) -> (forall j, (j < n)%nat -> rst' j <> 0) ->
  elements n r rs -> elements n r' rs' ->
  is_vector N t -> (forall m, (m < N)%nat -> aget t (at_time m) = Fin (ts m)) ->
  is_vector N t' -> (forall m, (m < N)%nat -> aget t' (at_time m) = Fin (ts' m)) ->
  opt_exposures N texp es ->
  (use = Some false \/ oa_in_transit A t (flat_radii r) texp ld = oa_in_transit A' t' (flat_radii r') texp ld) ->
  (forall nodes weights, (texp <> None -> stencil os order = Ok (nodes, weights)) -> forall m j, (m < N)%nat -> (j < n)%nat ->
     mean_flux u1 u2 P rst rs ts nodes weights es texp m j = mean_flux u1 u2 P' rst' rs' ts' nodes weights es texp m j) ->
  same_light n N
    (get_light_curve (ld_init (Fin u1) (Fin u2)) (Some A) (Some r) (Some t) texp os order use ld)
    (get_light_curve (ld_init (Fin u1) (Fin u2)) (Some A') (Some r') (Some t') texp os order use ld).
Proof.
  intros Hd HA HA' Hs Hs' Hz Hz' Hr Hr' Ht Hts Ht' Hts' He Hi Hf. cbn [get_light_curve].
  set (u := match use with Some u => u | None => negb ld end).
  assert (Hi' : u = false \/ oa_in_transit A t (flat_radii r) texp ld = oa_in_transit A' t' (flat_radii r') texp ld)
    by (destruct Hi as [->|Hi]; [left; reflexivity|right; exact Hi]).
  clearbody u. clear Hi.
  (* no nodes *)
  assert (Hst : texp = None \/ (exists nw, stencil os order = Ok nw) \/ (texp <> None /\ exists e, stencil os order = Err e)).
  { destruct texp; [right|left; reflexivity]. destruct (stencil os order) as [nw|e]; [left; eexists; reflexivity|right; split; [discriminate|eexists; reflexivity]]. }
  assert (Ex : forall nodes weights, (texp <> None -> stencil os order = Ok (nodes, weights)) ->
    match texp with None => True | Some e => exposures N e es /\ stencil os order = Ok (nodes, weights) end).
  { intros nodes weights H. destruct texp as [e|]; [|exact I]. split; [exact He|apply H; discriminate]. }
  assert (Go : forall nodes weights, (texp <> None -> stencil os order = Ok (nodes, weights)) ->
    same_light n N (get_light_curve_checked (ld_init (Fin u1) (Fin u2)) A r t texp os order u ld)
      (get_light_curve_checked (ld_init (Fin u1) (Fin u2)) A' r' t' texp os order u ld)).
  { intros nodes weights Hnw. specialize (Hf nodes weights Hnw). specialize (Ex nodes weights Hnw). destruct u.
    - destruct Hi' as [C|Hi']; [discriminate C|].
      destruct (oa_in_transit A t (flat_radii r) texp ld) as [inds|e] eqn:EI; symmetry in Hi'.
      2:{ unfold get_light_curve_checked. fold (flat_radii r) (flat_radii r'). rewrite EI, Hi'. cbn [rmap rbind]. reflexivity. }
      destruct (forallb (fun q => Nat.ltb q N) inds) eqn:EB.
      2:{ unfold get_light_curve_checked. fold (flat_radii r) (flat_radii r'). rewrite EI, Hi'. cbn [rmap rbind]. unfold agather. rewrite (proj2 Ht), (proj2 Ht'). cbn [last]. rewrite EB. reflexivity. }
      assert (Hb : forall m, In m inds -> (m < N)%nat) by (intros m Hm; rewrite forallb_forall in EB; apply Nat.ltb_lt, EB, Hm).
      destruct (masked_ok u1 u2 A ld n P rst Hd HA Hs Hz r rs Hr N t ts Ht Hts nodes weights es texp os order Ex inds EI Hb) as (X & EX & SX & VX).
      destruct (masked_ok u1 u2 A' ld n P' rst' Hd HA' Hs' Hz' r' rs' Hr' N t' ts' Ht' Hts' nodes weights es texp os order Ex inds Hi' Hb) as (X' & EX' & SX' & VX').
      rewrite EX, EX'. cbn [same_light].
      exists (fun m j => if in_dec Nat.eq_dec m inds then mean_flux u1 u2 P rst rs ts nodes weights es texp m j else 0).
      split; (split; [assumption|]); intros m j Hm Hj; destruct (in_dec Nat.eq_dec m inds) as [I|I].
      + apply (VX m j Hm Hj), I.
      + apply (VX m j Hm Hj), I.
      + rewrite (proj1 (VX' m j Hm Hj) I), (Hf m j Hm Hj). reflexivity.
      + apply (VX' m j Hm Hj), I.
    - destruct (plain_ok u1 u2 A ld n P rst Hd HA Hs Hz r rs Hr N t ts Ht Hts nodes weights es texp os order Ex) as (X & EX & TX).
      destruct (plain_ok u1 u2 A' ld n P' rst' Hd HA' Hs' Hz' r' rs' Hr' N t' ts' Ht' Hts' nodes weights es texp os order Ex) as (X' & EX' & SX' & VX').
      rewrite EX, EX'. cbn [same_light]. exists (mean_flux u1 u2 P rst rs ts nodes weights es texp). split; [exact TX|]. split; [exact SX'|].
      intros m j Hm Hj. rewrite (VX' m j Hm Hj), (Hf m j Hm Hj). reflexivity. }
  destruct Hst as [E|[[[nodes weights] E]|[E1 [e E]]]].
  - apply (Go [] []). intro C. contradiction.
  - apply (Go nodes weights). intros _. exact E.
  - destruct texp as [te|]; [|contradiction]. unfold get_light_curve_checked. fold (flat_radii r) (flat_radii r'). rewrite E.
    destruct u; cbn [rbind]; [|reflexivity]. destruct Hi' as [C|Hi']; [discriminate C|]. rewrite <- Hi'.
    destruct (oa_in_transit A t (flat_radii r) (Some te) ld) as [inds|]; cbn [rmap rbind]; [|reflexivity].
    unfold agather. rewrite (proj2 Ht), (proj2 Ht'). cbn [last]. destruct (forallb _ inds); reflexivity.
Qed.

(** the fluxes agree at every moment of every exposure *)
Lemma mean_same u1 u2 P P' rst rst' rs rs' ts ts' nodes weights es texp m j :
  (forall x, flux_at u1 u2 (P j (ts m + x)) (rs j) (rst j) = flux_at u1 u2 (P' j (ts' m + x)) (rs' j) (rst' j)) ->
  mean_flux u1 u2 P rst rs ts nodes weights es texp m j = mean_flux u1 u2 P' rst' rs' ts' nodes weights es texp m j.
Proof.
  intro H. unfold mean_flux, fluxj. destruct texp.
  - unfold node_mean. f_equal. apply map_ext. intro p. rewrite H. reflexivity.
  - assert (H0 := H 0). rewrite !Rplus_0_r in H0. exact H0.
Qed.

(** ** secondary eclipses *)
Lemma second_same k n x xs os o x' xs' os' o' r rs r' rs' o2 o2' cp u1 u2 v1 v2 s ss N t t' texp osam order use ld :
  consts_ok k -> system k n x xs os -> kep_init k x = Ok o -> planet_values n r rs ->
  system k n x' xs' os' -> kep_init k x' = Ok o' -> planet_values n r' rs' ->
  flip k o r = Ok o2 -> flip k o' r' = Ok o2' -> planet_values n s ss -> (forall j, (j < n)%nat -> 0 <= ss j) ->
  (forall j, (j < n)%nat -> 0 < rs j) -> (forall j, (j < n)%nat -> 0 < rs' j) ->
  (forall j, (j < n)%nat -> rs' j / o_r_star (os' j) = rs j / o_r_star (os j)) ->
  let lc l A r t := get_light_curve l (Some A) (Some r) (Some t) texp osam order use ld in
  let S := {| se_primary := ld_init (Fin u1) (Fin u2); se_secondary := ld_init (Fin v1) (Fin v2); se_ratio := s |} in
  same_light n N (lc (se_primary S) (kep_api k cp o) r t) (lc (se_primary S) (kep_api k cp o') r' t') ->
  same_light n N (lc (se_secondary S) (kep_api k cp o2) (o_r_star o) t) (lc (se_secondary S) (kep_api k cp o2') (o_r_star o') t') ->
  same_light n N (secondary_light_curve k cp S o r (Some t) texp osam order use ld) (secondary_light_curve k cp S o' r' (Some t') texp osam order use ld).
Proof.
  intros kok sys Ho Hr sys' Ho' Hr' Hf Hf' Hs Hs0 Hr0 Hr0' Hk lc S L1 L2.
  unfold same_light in L1, L2.
  destruct (lc (se_primary S) (kep_api k cp o) r t) as [X1|e1] eqn:E1; destruct (lc (se_primary S) (kep_api k cp o') r' t') as [X1'|e1'] eqn:E1'; try contradiction.
  2:{ unfold secondary_light_curve. rewrite Hf, Hf'. cbn [rbind]. unfold lc in E1, E1'. rewrite E1, E1'. cbn [rbind]. exact L1. }
  destruct (lc (se_secondary S) (kep_api k cp o2) (o_r_star o) t) as [X2|e2] eqn:E2; destruct (lc (se_secondary S) (kep_api k cp o2') (o_r_star o') t') as [X2'|e2'] eqn:E2'; try contradiction.
  2:{ unfold secondary_light_curve. rewrite Hf, Hf'. cbn [rbind]. unfold lc in E1, E1', E2, E2'. rewrite E1, E1'. cbn [rbind]. rewrite E2, E2'. exact L2. }
  destruct L1 as (f1 & T1 & T1'). destruct L2 as (f2 & T2 & T2').
  destruct (mixed k n x xs os o kok sys Ho r rs Hr Hr0 cp S ss N (Some t) texp osam order use ld X1 X2 f1 f2 o2 Hs Hs0 Hf E1 T1 E2 T2) as (X & EX & TX).
  destruct (mixed k n x' xs' os' o' kok sys' Ho' r' rs' Hr' Hr0' cp S ss N (Some t') texp osam order use ld X1' X2' f1 f2 o2' Hs Hs0 Hf' E1' T1' E2' T2') as (X' & EX' & SX' & TX').
  rewrite EX, EX'. cbn [same_light]. eexists. split; [exact TX|]. split; [exact SX'|]. intros m j Hm Hj. rewrite (TX' m j Hm Hj). f_equal. f_equal. unfold flux_ratio.
  assert (K := Hk j Hj). first [rewrite K; reflexivity | idtac].
Qed.

(** ** in_transit that agrees *)
Lemma forallb_ext_in' {A} (f g : A -> bool) l : (forall a, In a l -> f a = g a) -> forallb f l = forallb g l.
Proof. induction l as [|a l IH]; intro H; [reflexivity|]. cbn. rewrite (H a (or_introl eq_refl)), IH; [reflexivity|]. intros b Hb. apply H. right. exact Hb. Qed.
Lemma existsb_ext_in' {A} (f g : A -> bool) l : (forall a, In a l -> f a = g a) -> existsb f l = existsb g l.
Proof. induction l as [|a l IH]; intro H; [reflexivity|]. cbn. rewrite (H a (or_introl eq_refl)), IH; [reflexivity|]. intros b Hb. apply H. right. exact Hb. Qed.
Lemma mask_same k n N x xs os x' xs' os' r rs r' rs' te es t ts t' ts' cp o o' ld :
  consts_ok k -> system k n x xs os -> system k n x' xs' os' -> planet_values n r rs -> planet_values n r' rs' -> opt_values n te es ->
  is_vector N t -> (forall m, (m < N)%nat -> aget t (at_time m) = Fin (ts m)) ->
  is_vector N t' -> (forall m, (m < N)%nat -> aget t' (at_time m) = Fin (ts' m)) ->
  (forall m j, (m < N)%nat -> (j < n)%nat -> the_entry os rs te es ts cp m j = the_entry os' rs' te es ts' cp m j) ->
  kep_init k x = Ok o -> kep_init k x' = Ok o' ->
  oa_in_transit (kep_api k (lift_cp cp) o) t r te ld = oa_in_transit (kep_api k (lift_cp cp) o') t' r' te ld.
Proof.
  intros kok sys sys' Hr Hr' He Ht Hts Ht' Hts' E Ho Ho'. destruct ld; [reflexivity|]. cbn [oa_in_transit kep_api].
  destruct (kin_system k n N x xs os r rs te es t ts cp kok sys Hr He Ht Hts) as (o1 & Ho1 & L1). rewrite Ho in Ho1. apply Ok_inj in Ho1. subst o1.
  destruct (kin_system k n N x' xs' os' r' rs' te es t' ts' cp kok sys' Hr' He Ht' Hts') as (o2 & Ho2 & L2). rewrite Ho' in Ho2. apply Ok_inj in Ho2. subst o2.
  rewrite L1, L2. f_equal. destruct (Nat.eq_dec N 0) as [->|HN].
  - unfold picked. cbn. destruct (flags_ok _ _), (flags_ok _ _); reflexivity.
  - assert (F : flags_ok n (the_entry os rs te es ts cp) = flags_ok n (the_entry os' rs' te es ts' cp)).
    { unfold flags_ok. apply forallb_ext_in'. intros j Hj. apply in_seq in Hj. rewrite (E O j) by lia. reflexivity. }
    rewrite F. destruct (flags_ok n (the_entry os' rs' te es ts' cp)); [|reflexivity]. unfold picked. apply filter_ext_in. intros m Hm. apply in_seq in Hm.
    apply existsb_ext_in'. intros j Hj. apply in_seq in Hj. rewrite (E m j) by lia. reflexivity.
Qed.
