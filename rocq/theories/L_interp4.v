(** * Lemmas about the interpolated light curve: times of any shape *)
From Coq Require Import Reals List Bool Arith ZArith Lra Lia FunctionalExtensionality.
From Verif Require Import Num CoreOps Inst CoreFlux M_units M_kepler M_tensor M_simple M_ttv M_limbdark M_interpolated
  Spec_orbit Spec_array Spec_light Spec_interp L_fl L_real L_reshape L_interp L_interp2 L_interp3 L_transit3 Ex_orbit Ex_system M_fin.
Import ListNotations.
Open Scope R_scope.

Lemma lin_ext s i i' : (forall d, (d < length s)%nat -> i d = i' d) -> lin s i = lin s i'.
Proof.
  revert i i'. induction s as [|a s IH]; intros i i' H; [reflexivity|]. cbn [lin].
  rewrite (H O) by (cbn [length]; lia). rewrite (IH (fun k => i (S k)) (fun k => i' (S k))) by (intros d Hd; apply H; cbn [length]; lia). reflexivity.
Qed.
Lemma lin_bound s i : inside s i -> (lin s i < prod s)%nat.
Proof.
  revert i. induction s as [|a s IH]; intros i H; [cbn; lia|]. cbn [lin prod fold_right]. fold (prod s).
  assert (H0 := H O ltac:(cbn [length]; lia)). cbn [nth] in H0.
  assert (B : (lin s (fun k => i (S k)) < prod s)%nat) by (apply IH; intros k Hk; apply (H (S k)); cbn [length]; lia).
  destruct (Nat.eqb_spec a 1); nia.
Qed.
Lemma entries_any s t ts : recorded s t ts -> entries t = Ok (map Fin (map ts (seq 0 (prod s)))).
Proof.
  intros [HS HV]. unfold entries. rewrite HS. cbn [rmap]. f_equal. rewrite map_map. apply map_ext_in. intros m Hm. apply in_seq in Hm. apply HV. lia.
Qed.
Lemma interp_shape : forall n base Q np tv t0 period f T0 P s t ts,
  interpolating n base Q np tv t0 period f T0 P -> recorded s t ts -> (s = [] -> (2 <= n)%nat) ->
  exists Y Z v, interpolated_light_curve base Q np tv t0 period t = Ok Y /\
    interpolated_light_curve base Q np tv t0 period (avec (map ts (seq 0 (prod s)))) = Ok Z /\ light_table n (prod s) Z v /\
    ash Y = Ok (placed n s) /\ forall i j, inside s i -> (j < n)%nat -> aget Y (place n s i j) = Fin (v (lin s i) j).
Proof.
  intros n base Q np tv t0 period f T0 P s t ts I HT H0.
  assert (HT' : observed (prod s) (avec (map ts (seq 0 (prod s)))) ts).
  { split; [unfold avec; cbn [ash]; rewrite map_length, seq_length; reflexivity|]. intros m Hm. unfold avec. cbn [aget at_time]. rewrite map_length, seq_length.
    cbn [cons_ix]. rewrite coord_small by exact Hm. cbn [nlit NumF]. f_equal. apply (nth_map_seq ts). exact Hm. }
  destruct (interpolated_value n base Q np tv t0 period f T0 P _ _ ts I HT') as (Z & EZ & TZ).
  assert (J := I). destruct (ip_base _ _ _ _ _ _ _ _ _ _ I) as [p [Hp HB]].
  assert (HQ := ip_grid _ _ _ _ _ _ _ _ _ _ I). assert (HC := ip_count _ _ _ _ _ _ _ _ _ _ I).
  destruct (ip_t0 _ _ _ _ _ _ _ _ _ _ I) as [S0 V0]. destruct (ip_period _ _ _ _ _ _ _ _ _ _ I) as [SP VP].
  assert (HP := ip_pos _ _ _ _ _ _ _ _ _ _ I). destruct (counted_ok _ _ _ HC) as [z [Hz Hn]].
  assert (E : exists Y, interpolated_light_curve base Q np tv t0 period t = Ok Y /\ ash Y = Ok (placed n s) /\
    forall i j, inside s i -> (j < n)%nat -> aget Y (place n s i j) = Fin (fold_value (T0 j) (P j) Q (f j) (ts (lin s i)))).
  2:{ destruct E as (Y & E1 & E2 & E3). exists Y, Z. eexists. split; [exact E1|]. split; [exact EZ|]. split; [exact TZ|]. split; [exact E2|exact E3]. }
  unfold interpolated_light_curve. rewrite Hz. cbn [rbind]. rewrite (proj1 HT). cbn [rbind]. rewrite (entries_any _ _ _ HT). cbn [rbind]. unfold placed, place.
  destruct (Z.leb_spec z 1) as [L|L].
  - assert (n = 1%nat) by lia. subst n. cbn [Nat.leb] in S0, SP |- *. unfold scalar_of. rewrite S0, SP. cbn [rbind].
    rewrite (V0 ix0 Nat.lt_0_1 : aget t0 ix0 = Fin (T0 O)), (VP ix0 Nat.lt_0_1 : aget period ix0 = Fin (P O)).
    rewrite (folded_value (T0 O) (P O) Q (HP O ltac:(lia)) HQ p base f O _ HB ltac:(lia)). cbn [rbind].
    unfold expanded. destruct s as [|a s]; [exfalso; specialize (H0 eq_refl); lia|]. set (s1 := a :: s) in *.
    eexists. split; [reflexivity|]. split; [reflexivity|]. intros i j Hi Hj. assert (j = O) by lia. subst j. cbn [aget].
    rewrite (lin_ext s1 _ i).
    { rewrite map_map. rewrite (nth_map_seq (fun m => Fin (fold_value (T0 O) (P O) Q (f O) (ts m)))) by (apply lin_bound; exact Hi). reflexivity. }
    intros d Hd. destruct (Nat.ltb_spec d (length s1 - 1)) as [H|H]; [reflexivity|].
    destruct (Nat.ltb_spec (S d) (length s1 - 1)); [lia|]. destruct (Nat.eqb_spec (S d) (length s1 - 1)); [lia|reflexivity].
  - assert (n2 : Nat.leb n 1 = false) by (apply Nat.leb_gt; lia). rewrite n2 in *.
    destruct S0 as [d0 [L0 S0]]. destruct SP as [dP [LP SP]]. replace (Z.to_nat z) with n by lia.
    rewrite (map_res_ok _ (fun j => map (fun m => Fin (fold_value (T0 j) (P j) Q (f j) (ts m))) (seq 0 (prod s)))).
    { cbn [rbind]. eexists. split; [reflexivity|]. unfold stacked. rewrite map_length, seq_length. split; [reflexivity|]. intros i j Hi Hj. cbn [aget cons_ix]. rewrite coord_small by exact Hj.
      rewrite (nth_map_seq (fun j => map (fun m => Fin (fold_value (T0 j) (P j) Q (f j) (ts m))) (seq 0 (prod s)))) by exact Hj.
      change (fun d => cons_ix j i (S d)) with i. rewrite (nth_map_seq (fun m => Fin (fold_value (T0 j) (P j) Q (f j) (ts m)))) by (apply lin_bound; exact Hi). reflexivity. }
    intros j Hj. apply in_seq in Hj. unfold tix. rewrite S0, SP.
    replace (Nat.ltb j d0) with true by (symmetry; apply Nat.ltb_lt; lia).
    replace (Nat.ltb j dP) with true by (symmetry; apply Nat.ltb_lt; lia). cbn [rbind].
    rewrite (V0 (fun _ => j)), (VP (fun _ => j)) by lia.
    rewrite (folded_value (T0 j) (P j) Q (HP j ltac:(lia)) HQ p base f j _ HB ltac:(lia)).
    rewrite map_map. reflexivity.
Qed.
Lemma interp_single : forall base Q np tv t0 period f T0 P t ts,
  interpolating 1 base Q np tv t0 period f T0 P -> recorded [] t ts -> interpolated_light_curve base Q np tv t0 period t = Err IndexErr.
Proof.
  intros base Q np tv t0 period f T0 P t ts I HT. destruct (ip_base _ _ _ _ _ _ _ _ _ _ I) as [p [Hp HB]].
  assert (HQ := ip_grid _ _ _ _ _ _ _ _ _ _ I). destruct (counted_ok _ _ _ (ip_count _ _ _ _ _ _ _ _ _ _ I)) as [z [Hz Hn]].
  destruct (ip_t0 _ _ _ _ _ _ _ _ _ _ I) as [S0 V0]. destruct (ip_period _ _ _ _ _ _ _ _ _ _ I) as [SP VP]. assert (HP := ip_pos _ _ _ _ _ _ _ _ _ _ I).
  unfold interpolated_light_curve. rewrite Hz. cbn [rbind]. rewrite (proj1 HT). cbn [rbind]. rewrite (entries_any _ _ _ HT). cbn [rbind].
  replace (z <=? 1)%Z with true by (symmetry; apply Z.leb_le; lia). cbn [Nat.leb] in S0, SP. unfold scalar_of. rewrite S0, SP. cbn [rbind].
  rewrite (V0 ix0 Nat.lt_0_1 : aget t0 ix0 = Fin (T0 O)), (VP ix0 Nat.lt_0_1 : aget period ix0 = Fin (P O)).
  rewrite (folded_value (T0 O) (P O) Q (HP O ltac:(lia)) HQ p base f O _ HB ltac:(lia)). reflexivity.
Qed.
Lemma shape_example : forall cp, exists o r, kep_init ek (ex_scalar_args 0) = Ok o /\
  (exists f T0 P, interpolating 1 (fun t => get_light_curve (ld_init (Fin (3 / 10)) (Fin (2 / 10))) (Some (kep_api ek (lift_cp cp) o)) (Some r) (Some t) None 7 0 None false)
    50 None (Some 1%nat) (o_t0 o) (o_period o) f T0 P) /\
  recorded [3; 2]%nat (mkA (Ok [3; 2]%nat) (fun i => Fin (INR (i O) + INR (i 1%nat) / 2))) (fun m => INR (m mod 3) + INR (m / 3) / 2) /\
  recorded [] (scalar 1) (fun _ => 1).
Proof.
  intro cp. destruct interp_example as (q & D & K & S & E & X & C1 & C2 & O & _).
  destruct (system_orbit ek 1 (ex_scalar_args 0) (fun _ => ex_b_args 0) (fun _ => q) K S) as (o & Ho & _).
  exists o, (scalar (1 / 10)). split; [exact Ho|]. split.
  { destruct (O o Ho) as [O1 O2]. destruct (interp_kepler (3 / 10) (2 / 10) ek 1 (ex_scalar_args 0) (fun _ => ex_b_args 0) (fun _ => q) o cp (scalar (1 / 10)) (fun _ => 1 / 10) 7 0 true 50 None (Some 1%nat) D K S Ho E
      ltac:(right; intros; exact X) ltac:(lia) C1 O1 O2) as [I _]. do 3 eexists. exact I. }
  split; (split; [reflexivity|]).
  - intros m Hm. cbn [prod fold_right] in Hm. cbn [aget unlin cons_ix]. f_equal. rewrite (Nat.mod_small (m / 3) 2) by (apply Nat.div_lt_upper_bound; lia). reflexivity.
  - intros m Hm. reflexivity.
Qed.
