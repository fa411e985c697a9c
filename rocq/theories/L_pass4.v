(** * What light curves determine: systems of planets, both kinds of orbit *)
From Coq Require Import Reals Lra Lia Psatz List Bool Arith ZArith.
From Coquelicot Require Import Coquelicot.
From Verif Require Import Num CoreOps Inst CoreFlux M_units M_kepler M_fin M_tensor M_limbdark M_simple Spec_orbit Spec_params Spec_array Spec_simple Spec_light Spec_depth Spec_curve Spec_curve2
  L_real L_orbit L_params3 L_flux L_simple L_simple2 L_transit L_light1 L_light3 L_light4 L_light7 L_light8 L_area L_depth L_depth2 L_depth3 L_depth4 L_curve L_curve2 L_curve3 L_lens L_pass L_pass2 L_pass3.
Import ListNotations.
Open Scope R_scope.

Lemma simple_light_value u1 u2 n (x : sargs tens) xs r rs use j t : disk_flux u1 u2 <> 0 -> simple_system n x xs -> (forall j, (j < n)%nat -> simple_ok (xs j)) -> elements n r rs -> simple_search use n xs rs -> (j < n)%nat ->
  forall v, light_at u1 u2 (simple_api (simple_init x)) n r use j t v <-> v = flux_at u1 u2 (spos (xs j) t) (rs j) (dflt 1 (sa_r_star (xs j))).
Proof.
  intros Hd sys ok Hr Hm Hj v. assert (V1 : is_vector 1 (vector 1 (fun _ => t))) by (split; [intros s E i i' H; reflexivity|reflexivity]). assert (V2 : forall m, (m < 1)%nat -> aget (vector 1 (fun _ => t)) (at_time m) = Fin ((fun _ => t) m)) by reflexivity.
  destruct (lc_simple_plain u1 u2 n x xs r rs 1 _ _ 7 0 Hd sys ok Hr V1 V2) as (X & EX & TX).
  assert (W : exists Y, get_light_curve (ld_init (Fin u1) (Fin u2)) (Some (simple_api (simple_init x))) (Some r) (Some (vector 1 (fun _ => t))) None 7 0 use false = Ok Y /\ light_table n 1 Y (fun m j => flux_at u1 u2 (spos (xs j) t) (rs j) (dflt 1 (sa_r_star (xs j))))).
  { assert (M : use = Some false \/ (use = None \/ use = Some true) /\ forall j, (j < n)%nat -> 0 <= rs j /\ Rabs (dflt 0 (sa_b (xs j))) < 1 + dflt 0 (sa_ror (xs j)) /\
      Rabs (dflt 0 (sa_b (xs j))) * dflt 1 (sa_r_star (xs j)) <> dflt 1 (sa_r_star (xs j)) + rs j) by (destruct Hm as [->|Hm]; [left; reflexivity|destruct use as [[|]|]; auto]).
    destruct M as [->|[U M]]; [exists X; split; assumption|].
    destruct (masked_simple u1 u2 n x xs r rs 1 _ _ None 7 0 Hd sys ok Hr V1 V2 ltac:(cbn; lra) ltac:(lia) ltac:(left; reflexivity) M) as (X' & Y' & f & E1 & E2 & T1 & T2).
    change (one_texp None) with (@None tens) in E1, E2. rewrite EX in E2. apply Ok_inj in E2. subst Y'. exists X'. split.
    - destruct U as [->| ->]; exact E1.
    - destruct T1 as [T1 T1']. split; [exact T1|]. intros m i Hm' Hi. rewrite (T1' m i Hm' Hi), <- (proj2 T2 m i Hm' Hi). apply (proj2 TX m i Hm' Hi). }
  destruct W as (Y & EY & TY). split.
  - intros (X' & f & E1 & T1 & <-). rewrite EY in E1. apply Ok_inj in E1. subst X'. assert (A := proj2 T1 O j ltac:(lia) Hj). rewrite (proj2 TY O j ltac:(lia) Hj) in A. congruence.
  - intros ->. exists Y. eexists. split; [exact EY|]. split; [exact TY|reflexivity].
Qed.

Lemma curve_geometry : forall u1 u2 k n (x : kargs tens) xs os o cp r rs use j n' (x' : kargs tens) xs' os' o' cp' r' rs' use' j',
  lit u1 u2 -> consts_ok k -> system k n x xs os -> kep_init k x = Ok o -> elements n r rs -> plain_mask use n xs os rs -> (j < n)%nat -> transiting (os j) (rs j) ->
  system k n' x' xs' os' -> kep_init k x' = Ok o' -> elements n' r' rs' -> plain_mask use' n' xs' os' rs' -> (j' < n')%nat -> transiting (os' j') (rs' j') ->
  ratio_shown u1 u2 (o_b (os j)) (o_r_star (os j)) (rs j) (o_b (os' j')) (o_r_star (os' j')) (rs' j') ->
  (forall t v, light_at u1 u2 (kep_api k (lift_cp cp) o) n r use j t v <-> light_at u1 u2 (kep_api k (lift_cp cp') o') n' r' use' j' t v) ->
  same_times (os j) (os' j') /\ rs' j' / o_r_star (os' j') = rs j / o_r_star (os j) /\ Rabs (o_b (os' j')) = Rabs (o_b (os j)) /\ o_a (os' j') / o_r_star (os' j') = o_a (os j) / o_r_star (os j).
Proof.
  intros u1 u2 k n x xs os o cp r rs use j n' x' xs' os' o' cp' r' rs' use' j' Hl kok sys Ho Hr Hm Hj T sys' Ho' Hr' Hm' Hj' T' Q E. assert (D := shining_flux _ _ (lit_shines _ _ Hl)).
  apply (kk_geometry k (xs j) (xs' j') (os j) (os' j') (rs j) (rs' j') kok (sy_init _ _ _ _ _ sys j Hj) (sy_phys _ _ _ _ _ sys j Hj) T (sy_init _ _ _ _ _ sys' j' Hj') (sy_phys _ _ _ _ _ sys' j' Hj') T' u1 u2 Hl Q).
  intro t. apply (light_value u1 u2 k n' x' xs' os' o' cp' r' rs' use' j' t D kok sys' Ho' Hr' Hm' Hj'), E. apply (light_value u1 u2 k n x xs os o cp r rs use j t D kok sys Ho Hr Hm Hj). reflexivity.
Qed.

Lemma simple_dimmed : forall u1 u2 n (x : sargs tens) xs r rs use j t v,
  shining u1 u2 -> simple_system n x xs -> (forall i, (i < n)%nat -> simple_ok (xs i)) -> elements n r rs -> simple_search use n xs rs -> (j < n)%nat -> crossing (xs j) (rs j) ->
  light_at u1 u2 (simple_api (simple_init x)) n r use j t v ->
  v <= 0 /\ (v < 0 <-> exists z : Z, Rabs (t - smid (xs j) z) < sa_duration (xs j) / 2 * dimmed_part (xs j) (rs j)).
Proof.
  intros u1 u2 n x xs r rs use j t v S sys ok Hr Hm Hj C H. apply (simple_light_value u1 u2 n x xs r rs use j t (shining_flux _ _ S) sys ok Hr Hm Hj) in H. subst v.
  rewrite <- (simple_w (xs j) (rs j) C). apply (pass_dims _ _ _ _ _ _ _ (simple_passes (xs j) (rs j) C) u1 u2 t S).
Qed.
Lemma simple_times : forall u1 u2 u1' u2' n (x : sargs tens) xs r rs use j n' (x' : sargs tens) xs' r' rs' use' j',
  shining u1 u2 -> shining u1' u2' -> simple_system n x xs -> (forall i, (i < n)%nat -> simple_ok (xs i)) -> elements n r rs -> simple_search use n xs rs -> (j < n)%nat -> crossing (xs j) (rs j) ->
  simple_system n' x' xs' -> (forall i, (i < n')%nat -> simple_ok (xs' i)) -> elements n' r' rs' -> simple_search use' n' xs' rs' -> (j' < n')%nat -> crossing (xs' j') (rs' j') ->
  (forall t v, light_at u1 u2 (simple_api (simple_init x)) n r use j t v <-> light_at u1' u2' (simple_api (simple_init x')) n' r' use' j' t v) ->
  same_simple_times (xs j) (xs' j') /\ sa_duration (xs' j') * dimmed_part (xs' j') (rs' j') = sa_duration (xs j) * dimmed_part (xs j) (rs j).
Proof.
  intros u1 u2 u1' u2' n x xs r rs use j n' x' xs' r' rs' use' j' S S' sys ok Hr Hm Hj C sys' ok' Hr' Hm' Hj' C' E. apply (ss_times (xs j) (xs' j') (rs j) (rs' j') C C' u1 u2 u1' u2' S S').
  intro t. apply (simple_light_value u1' u2' n' x' xs' r' rs' use' j' t (shining_flux _ _ S') sys' ok' Hr' Hm' Hj'), E. apply (simple_light_value u1 u2 n x xs r rs use j t (shining_flux _ _ S) sys ok Hr Hm Hj). reflexivity.
Qed.
Lemma whole_duration : forall x r, crossing x r -> matched x r -> dimmed_part x r = 1.
Proof. exact matched_part. Qed.
Lemma simple_geometry : forall u1 u2 n (x : sargs tens) xs r rs use j n' (x' : sargs tens) xs' r' rs' use' j',
  lit u1 u2 -> simple_system n x xs -> (forall i, (i < n)%nat -> simple_ok (xs i)) -> elements n r rs -> simple_search use n xs rs -> (j < n)%nat -> crossing (xs j) (rs j) -> matched (xs j) (rs j) ->
  simple_system n' x' xs' -> (forall i, (i < n')%nat -> simple_ok (xs' i)) -> elements n' r' rs' -> simple_search use' n' xs' rs' -> (j' < n')%nat -> crossing (xs' j') (rs' j') -> matched (xs' j') (rs' j') ->
  ratio_shown u1 u2 (dflt 0 (sa_b (xs j))) (dflt 1 (sa_r_star (xs j))) (rs j) (dflt 0 (sa_b (xs' j'))) (dflt 1 (sa_r_star (xs' j'))) (rs' j') ->
  (forall t v, light_at u1 u2 (simple_api (simple_init x)) n r use j t v <-> light_at u1 u2 (simple_api (simple_init x')) n' r' use' j' t v) ->
  same_simple_times (xs j) (xs' j') /\ sa_duration (xs' j') = sa_duration (xs j) /\ dflt 0 (sa_ror (xs' j')) = dflt 0 (sa_ror (xs j)) /\ Rabs (dflt 0 (sa_b (xs' j'))) = Rabs (dflt 0 (sa_b (xs j))).
Proof.
  intros u1 u2 n x xs r rs use j n' x' xs' r' rs' use' j' Hl sys ok Hr Hm Hj C M sys' ok' Hr' Hm' Hj' C' M' Q E. assert (D := shining_flux _ _ (lit_shines _ _ Hl)). apply (ss_geometry (xs j) (xs' j') (rs j) (rs' j') C C' u1 u2 Hl M M' Q).
  intro t. apply (simple_light_value u1 u2 n' x' xs' r' rs' use' j' t D sys' ok' Hr' Hm' Hj'), E. apply (simple_light_value u1 u2 n x xs r rs use j t D sys ok Hr Hm Hj). reflexivity.
Qed.
Lemma simple_enough : forall u1 u2 n (x : sargs tens) xs r rs use j n' (x' : sargs tens) xs' r' rs' use' j',
  disk_flux u1 u2 <> 0 -> simple_system n x xs -> (forall i, (i < n)%nat -> simple_ok (xs i)) -> elements n r rs -> simple_search use n xs rs -> (j < n)%nat ->
  simple_system n' x' xs' -> (forall i, (i < n')%nat -> simple_ok (xs' i)) -> elements n' r' rs' -> simple_search use' n' xs' rs' -> (j' < n')%nat ->
  same_simple_times (xs j) (xs' j') -> sa_duration (xs' j') = sa_duration (xs j) -> dflt 0 (sa_ror (xs' j')) = dflt 0 (sa_ror (xs j)) -> Rabs (dflt 0 (sa_b (xs' j'))) = Rabs (dflt 0 (sa_b (xs j))) ->
  rs' j' / dflt 1 (sa_r_star (xs' j')) = rs j / dflt 1 (sa_r_star (xs j)) ->
  forall t v, light_at u1 u2 (simple_api (simple_init x)) n r use j t v <-> light_at u1 u2 (simple_api (simple_init x')) n' r' use' j' t v.
Proof.
  intros u1 u2 n x xs r rs use j n' x' xs' r' rs' use' j' D sys ok Hr Hm Hj sys' ok' Hr' Hm' Hj' E1 E2 E3 E4 E5 t v.
  rewrite (simple_light_value u1 u2 n x xs r rs use j t D sys ok Hr Hm Hj), (simple_light_value u1 u2 n' x' xs' r' rs' use' j' t D sys' ok' Hr' Hm' Hj').
  rewrite (ss_enough (xs j) (xs' j') (rs j) (rs' j') u1 u2 (ok j Hj) (ok' j' Hj') E1 E2 E3 E4 E5 t). reflexivity.
Qed.
Lemma simple_not_kepler : forall u1 u2 k n (x : kargs tens) xs os o cp r rs use j n' (x' : sargs tens) xs' r' rs' use' j',
  lit u1 u2 -> consts_ok k -> system k n x xs os -> kep_init k x = Ok o -> elements n r rs -> plain_mask use n xs os rs -> (j < n)%nat -> transiting (os j) (rs j) ->
  simple_system n' x' xs' -> (forall i, (i < n')%nat -> simple_ok (xs' i)) -> elements n' r' rs' -> simple_search use' n' xs' rs' -> (j' < n')%nat -> crossing (xs' j') (rs' j') -> matched (xs' j') (rs' j') ->
  ratio_shown u1 u2 (o_b (os j)) (o_r_star (os j)) (rs j) (dflt 0 (sa_b (xs' j'))) (dflt 1 (sa_r_star (xs' j'))) (rs' j') ->
  ~ forall t v, light_at u1 u2 (kep_api k (lift_cp cp) o) n r use j t v <-> light_at u1 u2 (simple_api (simple_init x')) n' r' use' j' t v.
Proof.
  intros u1 u2 k n x xs os o cp r rs use j n' x' xs' r' rs' use' j' Hl kok sys Ho Hr Hm Hj T sys' ok' Hr' Hm' Hj' C' M' Q E. assert (D := shining_flux _ _ (lit_shines _ _ Hl)).
  apply (ks_differ k (xs j) (os j) (rs j) (xs' j') (rs' j') kok (sy_init _ _ _ _ _ sys j Hj) (sy_phys _ _ _ _ _ sys j Hj) T C' u1 u2 Hl M' Q).
  intro t. apply (simple_light_value u1 u2 n' x' xs' r' rs' use' j' t D sys' ok' Hr' Hm' Hj'), E. apply (light_value u1 u2 k n x xs os o cp r rs use j t D kok sys Ho Hr Hm Hj). reflexivity.
Qed.
