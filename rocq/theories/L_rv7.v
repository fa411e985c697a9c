(** * Remaining facts about the radial-velocity estimators *)
From Coq Require Import Reals List Bool Arith ZArith Lia Lra.
From Verif Require Import Num CoreOps Inst M_units M_kepler M_ttv M_rv Spec_orbit Spec_rv L_orbit CoreLin L_lin L_rv1 L_rv2 L_rv3 L_rv4 L_rv5 L_rv6 Ex_orbit Ex_rv.
Import ListNotations.
Open Scope R_scope.

Lemma transit_recovered : forall k periods t0s x y yerr P T0 ts vs sigma Ks c, consts_ok k ->
  measures periods (u_day k) P -> measures t0s (u_day k) T0 -> rv_data k x y yerr ts vs sigma ->
  List.Forall (fun p => p <> 0) P -> (length P <= length T0)%nat -> length Ks = length P ->
  transit_identifiable P T0 ts -> vs = map (transit_model P T0 Ks c) ts ->
  estimate_semi_amplitude k periods x y yerr (Some t0s) = Ok Ks.
Proof. intros k periods t0s x y yerr P T0 ts vs sigma Ks c OK MP MT MD NZ LT LK J E. exact (transit_exact k periods x y yerr P ts vs sigma OK MP MD t0s T0 MT NZ LT Ks c LK J E). Qed.
Lemma phase_recovered : forall k periods x y yerr P ts vs sigma Ks phis c, consts_ok k ->
  measures periods (u_day k) P -> rv_data k x y yerr ts vs sigma -> List.Forall (fun p => p <> 0) P ->
  length Ks = length P -> length phis = length P -> List.Forall (fun K => 0 <= K) Ks ->
  phase_identifiable P ts -> vs = map (harmonic_model P Ks phis c) ts ->
  estimate_semi_amplitude k periods x y yerr None = Ok Ks.
Proof.
  intros k periods x y yerr P ts vs sigma Ks phis c OK MP MD _ LK LP NN J E. rewrite <- (harmonic_amplitudes Ks phis) at 1 by (assumption || lia).
  assert (LC : length (combine Ks phis) = length P) by (rewrite combine_length; lia).
  refine (phase_exact k periods x y yerr P ts vs sigma OK MP MD _ _ c _ _ J _); [rewrite map_length; exact LC|rewrite map_length; exact LC|].
  rewrite E. apply map_ext. intro t. apply harmonic_phase; assumption.
Qed.
Lemma transit_optimal : forall k periods t0s x y yerr P T0 ts vs sigma K, consts_ok k ->
  measures periods (u_day k) P -> measures t0s (u_day k) T0 -> rv_data k x y yerr ts vs sigma ->
  List.Forall (fun p => p <> 0) P -> (length P <= length T0)%nat ->
  estimate_semi_amplitude k periods x y yerr (Some t0s) = Ok K ->
  length K = length P /\ exists c, forall K' c', length K' = length P ->
    chi2 (transit_model P T0 K c) ts vs sigma <= chi2 (transit_model P T0 K' c') ts vs sigma.
Proof. intros k periods t0s x y yerr P T0 ts vs sigma K OK MP MT MD NZ LT E. exact (transit_ls k periods x y yerr P ts vs sigma OK MP MD t0s T0 MT NZ LT K E). Qed.
Lemma phase_optimal : forall k periods x y yerr P ts vs sigma K, consts_ok k ->
  measures periods (u_day k) P -> rv_data k x y yerr ts vs sigma -> List.Forall (fun p => p <> 0) P ->
  estimate_semi_amplitude k periods x y yerr None = Ok K ->
  exists As Bs c, length As = length P /\ length Bs = length P /\ K = amplitude_list As Bs /\ forall As' Bs' c', length As' = length P -> length Bs' = length P ->
    chi2 (phase_model P As Bs c) ts vs sigma <= chi2 (phase_model P As' Bs' c') ts vs sigma.
Proof. intros k periods x y yerr P ts vs sigma K OK MP MD _ E. exact (phase_ls k periods x y yerr P ts vs sigma OK MP MD K E). Qed.
Lemma estimates_defined : forall k periods t0s x y yerr P T0 ts vs sigma, consts_ok k ->
  measures periods (u_day k) P -> measures t0s (u_day k) T0 -> rv_data k x y yerr ts vs sigma -> List.Forall (fun p => p <> 0) P ->
  ((length P <= length T0)%nat ->
     match estimate_semi_amplitude k periods x y yerr (Some t0s) with
     | Ok _ => transit_identifiable P T0 ts | Err e => e = LinAlgErr /\ ~ transit_identifiable P T0 ts end) /\
  ((length T0 < length P)%nat -> estimate_semi_amplitude k periods x y yerr (Some t0s) = Err IndexErr) /\
  match estimate_semi_amplitude k periods x y yerr None with
  | Ok _ => phase_identifiable P ts | Err e => e = LinAlgErr /\ ~ phase_identifiable P ts end.
Proof.
  intros k periods t0s x y yerr P T0 ts vs sigma OK MP MT MD NZ. split; [|split].
  - intro LT. exact (transit_defined k periods x y yerr P ts vs sigma OK MP MD t0s T0 MT NZ LT).
  - intro LT. destruct (ivar_spread k x y yerr ts vs sigma OK MD) as (V & EV & _). unfold estimate_semi_amplitude.
    assert (OD : 0 < uscale (u_day k)) by exact (ok_d _ OK). assert (OM : 0 < uscale (u_mps k)) by exact (ok_mps _ OK).
    rewrite (measures_value _ _ _ OD MP). cbn [rbind]. rewrite (measures_value _ _ _ OD MT). cbn [rbind]. rewrite (measures_value _ _ _ OD (rv_x _ _ _ _ _ _ _ MD)). cbn [rbind].
    rewrite (measures_value _ _ _ OM (rv_y _ _ _ _ _ _ _ MD)). cbn [rbind]. rewrite EV. cbn [rbind]. unfold design_matrix. assert (Nat.ltb (length T0) (length P) = true) as -> by (apply Nat.ltb_lt; exact LT). reflexivity.
  - exact (phase_defined k periods x y yerr P ts vs sigma OK MP MD).
Qed.
Lemma rv_orbit_example : exists o, circular_orbit ek o /\ o_period o = 10 /\ o_t0 o = 2 /\ transit_identifiable [10] [2] [2; 9 / 2].
Proof. destruct circ_rv_example as (o & C & P & T & _). exists o. split; [exact C|]. split; [exact P|]. split; [exact T|exact orbit_identifiable]. Qed.
Lemma kmps_example : consts_ok ek /\ measures (Q [3; 4] (Some (u_kmps ek))) (u_mps ek) [3000; 4000].
Proof. split; [exact ek_ok|]. cbn. split; [reflexivity|]. split; [lra|]. f_equal; [ring|]. f_equal. ring. Qed.
Lemma quantity_y_example : exists k periods x y t0s P X Y T0, consts_ok k /\
  measures periods (u_day k) P /\ measures x (u_day k) X /\ measures y (u_mps k) Y /\ measures t0s (u_day k) T0 /\
  (exists K, estimate_semi_amplitude k (plain P) (plain X) (plain Y) None (Some (plain T0)) = Ok K) /\
  estimate_semi_amplitude k periods x y None (Some t0s) = Err UnitErr.
Proof.
  exists ek, (plain [10]), (plain [2; 9 / 2]), (Q (map (fun v => v / 1000) (map (transit_model [10] [2] [50] 3) [2; 9 / 2])) (Some (u_kmps ek))), (plain [2]), [10], [2; 9 / 2], (map (transit_model [10] [2] [50] 3) [2; 9 / 2]), [2].
  split; [exact ek_ok|]. do 2 (split; [reflexivity|]). split; [|split; [reflexivity|split]].
  - cbn [measures qu qv]. split; [reflexivity|]. split; [cbn; lra|]. rewrite map_map. apply map_ext. intro v. unfold u_kmps. cbn [uscale u_mps]. field.
  - exists [50]. apply (transit_recovered ek (plain [10]) (plain [2]) (plain [2; 9 / 2]) _ None [10] [2] [2; 9 / 2] (map (transit_model [10] [2] [50] 3) [2; 9 / 2]) [1; 1] [50] 3 ek_ok); try reflexivity.
    + apply (plain_data [2; 9 / 2]). reflexivity.
    + repeat constructor. lra.
    + exact orbit_identifiable.
  - apply est_incompatible. do 5 right. split; [reflexivity|discriminate].
Qed.
Lemma mass_inv k mJ periods x y yerr t0s ms P m M : consts_ok k -> measures periods (u_day k) P -> solar_masses k ms m ->
  estimate_minimum_mass k mJ periods x y yerr t0s ms = Ok (Q M (Some mJ)) ->
  exists K, estimate_semi_amplitude k periods x y yerr t0s = Ok K /\ length K = length P /\
    M = map (fun z => fst z / 28.4329 * Rpower m (2 / 3) * Rpower (snd z / 365.25) (1 / 3)) (combine K P).
Proof.
  intros OK MP MS E. destruct (estimate_semi_amplitude k periods x y yerr t0s) as [K|e] eqn:EK.
  - destruct (mass_formula k mJ _ _ _ _ _ ms _ m _ OK MP MS EK) as [Q L]. exists K. split; [reflexivity|]. split; [exact L|]. rewrite E in Q. injection Q as ->. reflexivity.
  - exfalso. unfold estimate_minimum_mass in E. rewrite (measures_value _ _ _ (ok_d _ OK : 0 < uscale (u_day k)) MP) in E. cbn [rbind] in E.
    rewrite (solar_mass_value _ _ _ OK MS) in E. cbn [rbind] in E.
    assert (Q : estimate_semi_amplitude k (Q P (Some (u_day k))) x y yerr t0s = Err e).
    { rewrite <- EK. unfold estimate_semi_amplitude. rewrite (measures_value _ _ _ (ok_d _ OK : 0 < uscale (u_day k)) MP), (measures_value _ _ _ (ok_d _ OK : 0 < uscale (u_day k)) (day_identity k P OK)). reflexivity. }
    rewrite Q in E. discriminate.
Qed.
Lemma mass_linear : forall k mJ periods t0s P T0 x y1 y2 y yerr ts v1 v2 sigma a b ms m M1 M2, consts_ok k ->
  measures periods (u_day k) P -> measures t0s (u_day k) T0 -> (length P <= length T0)%nat -> solar_masses k ms m ->
  rv_data k x y1 yerr ts v1 sigma -> rv_data k x y2 yerr ts v2 sigma -> rv_data k x y yerr ts (lincomb a b v1 v2) sigma ->
  estimate_minimum_mass k mJ periods x y1 yerr (Some t0s) ms = Ok (Q M1 (Some mJ)) ->
  estimate_minimum_mass k mJ periods x y2 yerr (Some t0s) ms = Ok (Q M2 (Some mJ)) ->
  estimate_minimum_mass k mJ periods x y yerr (Some t0s) ms = Ok (Q (lincomb a b M1 M2) (Some mJ)).
Proof.
  intros k mJ periods t0s P T0 x y1 y2 y yerr ts v1 v2 sigma a b ms m M1 M2 OK MP MT LT MS D1 D2 D E1 E2.
  destruct (mass_inv _ _ _ _ _ _ _ _ _ _ _ OK MP MS E1) as (K1 & EK1 & L1 & ->). destruct (mass_inv _ _ _ _ _ _ _ _ _ _ _ OK MP MS E2) as (K2 & EK2 & L2 & ->).
  assert (EK := transit_linear k periods t0s P T0 x y1 y2 y yerr ts v1 v2 sigma a b K1 K2 OK MP MT LT D1 D2 D EK1 EK2).
  destruct (mass_formula k mJ _ _ _ _ _ ms _ m _ OK MP MS EK) as [-> _]. f_equal. f_equal. clear -L1 L2. revert K1 K2 L1 L2. unfold lincomb.
  induction P as [|p P IH]; intros [|A K1] [|B K2] L1 L2; try discriminate; [reflexivity|]. cbn [combine map fst snd]. rewrite IH by (cbn in *; lia). f_equal. unfold Rdiv. ring.
Qed.
