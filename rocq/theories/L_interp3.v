(** * Interpolated light curves of periodic light curves and Keplerian orbits *)
From Coq Require Import Reals List Bool Arith ZArith Lra Lia FunctionalExtensionality.
From Verif Require Import Num CoreOps Inst CoreFlux M_units M_kepler M_fin M_tensor M_simple M_ttv M_limbdark M_interpolated
  Spec_orbit Spec_params Spec_array Spec_light Spec_interp L_fl L_fl2 L_params3 L_real L_shape L_interp L_interp2 L_transit3 L_transit6 L_pmotion5 L_light4 L_light7 L_light8
  Ex_orbit Ex_system.
From Verif Require L_light9 L_light1.
Import ListNotations.
Open Scope R_scope.

Lemma step_ip n base Q np tv t0 period f T0 P j : interpolating n base Q np tv t0 period f T0 P -> (j < n)%nat -> 0 < P j / IZR (Q + 1).
Proof.
  intros I Hj. apply (step_pos (P j) Q (ip_pos _ _ _ _ _ _ _ _ _ _ I j Hj) (ip_grid _ _ _ _ _ _ _ _ _ _ I)).
Qed.

Lemma interp_grid : forall n base Q np tv t0 period f T0 P N t ts,
  interpolating n base Q np tv t0 period f T0 P -> observed N t ts ->
  exists Y v, interpolated_light_curve base Q np tv t0 period t = Ok Y /\ light_table n N Y v /\
    forall m j (i : nat) (z : Z), (m < N)%nat -> (j < n)%nat -> (Z.of_nat i <= Q)%Z ->
      ts m = T0 j + IZR z * P j + INR i * (P j / IZR (Q + 1)) -> v m j = f j (T0 j + INR i * (P j / IZR (Q + 1))).
Proof.
  intros n base Q np tv t0 period f T0 P N t ts I HT.
  destruct (interpolates _ _ _ _ _ _ _ _ _ _ _ _ _ I HT) as (Y & v & HY & TY & H). exists Y, v.
  split; [exact HY|]. split; [exact TY|]. intros m j i z Hm Hj Hi E. destruct (H m j Hm Hj) as (ph & Hp & Hf).
  assert (S := step_ip _ _ _ _ _ _ _ _ _ _ j I Hj). assert (HP := ip_pos _ _ _ _ _ _ _ _ _ _ I j Hj).
  assert (HQ := ip_grid _ _ _ _ _ _ _ _ _ _ I).
  assert (SP := step_P (P j) Q HQ). unfold step in SP.
  assert (Ep : ph = INR i * (P j / IZR (Q + 1))).
  { apply (phase_unique (T0 j) (P j) (ts m)); [exact HP|exact Hp|]. split; [|exists z; exact E]. split.
    { apply Rmult_le_pos; [apply pos_INR|lra]. }
    { rewrite SP at 2. apply Rmult_lt_compat_r; [exact S|]. rewrite INR_IZR_INZ. apply IZR_lt. lia. } }
  rewrite (four_grid _ _ _ _ i S Hf Ep), Ep. reflexivity.
Qed.

Lemma interp_periodic : forall n base Q np tv t0 period f T0 P N t ts t' ts',
  interpolating n base Q np tv t0 period f T0 P -> observed N t ts -> observed N t' ts' ->
  exists Y v Y' v', interpolated_light_curve base Q np tv t0 period t = Ok Y /\ light_table n N Y v /\
    interpolated_light_curve base Q np tv t0 period t' = Ok Y' /\ light_table n N Y' v' /\
    forall m j (z : Z), (m < N)%nat -> (j < n)%nat -> ts' m = ts m + IZR z * P j -> v' m j = v m j.
Proof.
  intros n base Q np tv t0 period f T0 P N t ts t' ts' I HT HT'.
  destruct (interpolates _ _ _ _ _ _ _ _ _ _ _ _ _ I HT) as (Y & v & HY & TY & H).
  destruct (interpolates _ _ _ _ _ _ _ _ _ _ _ _ _ I HT') as (Y' & v' & HY' & TY' & H').
  exists Y, v, Y', v'. do 4 (split; [assumption|]). intros m j z Hm Hj E.
  destruct (H m j Hm Hj) as (ph & Hp & Hf). destruct (H' m j Hm Hj) as (ph' & Hp' & Hf').
  assert (S := step_ip _ _ _ _ _ _ _ _ _ _ j I Hj). assert (HP := ip_pos _ _ _ _ _ _ _ _ _ _ I j Hj).
  assert (Ep : ph' = ph).
  { apply (phase_unique (T0 j) (P j) (ts' m)); [exact HP|exact Hp'|]. destruct Hp as [R1 [w Ew]].
    split; [exact R1|]. exists (w + z)%Z. rewrite E, Ew, plus_IZR. ring. }
  subst ph'. apply (four_unique _ _ _ _ _ S Hf' Hf).
Qed.

Lemma interp_accuracy : forall n base Q np tv t0 period f T0 P N t ts,
  interpolating n base Q np tv t0 period f T0 P -> observed N t ts ->
  (forall j s (z : Z), (j < n)%nat -> f j (s + IZR z * P j) = f j s) ->
  exists Y v, interpolated_light_curve base Q np tv t0 period t = Ok Y /\ light_table n N Y v /\
    forall m j, (m < N)%nat -> (j < n)%nat ->
      (forall c0 c1 c2 c3, (forall s, Rabs (s - ts m) <= 2 * (P j / IZR (Q + 1)) -> f j s = cubic c0 c1 c2 c3 s) -> v m j = f j (ts m)) /\
      (forall L, 0 <= L -> (forall s, Rabs (s - ts m) <= 2 * (P j / IZR (Q + 1)) -> Rabs (f j s - f j (ts m)) <= L * Rabs (s - ts m)) ->
         Rabs (v m j - f j (ts m)) <= 3 / 4 * L * (P j / IZR (Q + 1))).
Proof.
  intros n base Q np tv t0 period f T0 P N t ts I HT HF.
  destruct (interpolates _ _ _ _ _ _ _ _ _ _ _ _ _ I HT) as (Y & v & HY & TY & H). exists Y, v.
  split; [exact HY|]. split; [exact TY|]. intros m j Hm Hj. destruct (H m j Hm Hj) as (ph & (_ & z & Ez) & Hf).
  assert (S := step_ip _ _ _ _ _ _ _ _ _ _ j I Hj). set (h := P j / IZR (Q + 1)) in *.
  assert (EF : forall s, f j (T0 j + s) = f j (s - ph + ts m)).
  { intro s. rewrite <- (HF j (T0 j + s) z Hj). f_equal. rewrite Ez. ring. }
  assert (E0 : f j (ts m) = f j (T0 j + ph)) by (rewrite EF; f_equal; ring).
  split.
  { intros c0 c1 c2 c3 HC. rewrite E0.
    set (d := ts m - ph).
    apply (four_exact (fun s => f j (T0 j + s)) h ph (v m j)
      (c0 + c1 * d + c2 * (d * d) + c3 * (d * d * d)) (c1 + 2 * c2 * d + 3 * c3 * (d * d)) (c2 + 3 * c3 * d) c3 S Hf).
    intros s Hs. cbv beta. rewrite EF, HC by (replace (s - ph + ts m - ts m) with (s - ph) by ring; exact Hs).
    replace (s - ph + ts m) with (s + d) by (unfold d; ring). unfold cubic. ring. }
  { intros L HL HG. rewrite E0. apply (four_error (fun s => f j (T0 j + s)) h ph (v m j) L S HL Hf).
    intros s Hs. cbv beta. rewrite EF, <- E0.
    assert (A := HG (s - ph + ts m)). replace (s - ph + ts m - ts m) with (s - ph) in A by ring. apply A. exact Hs. }
Qed.

(** ** Keplerian orbits *)
Lemma avec_vector xs : is_vector (length xs) (avec xs) /\ forall m, (m < length xs)%nat -> aget (avec xs) (at_time m) = Fin (nth m xs 0).
Proof.
  split.
  { split; [|reflexivity]. intros s E i i' H. cbn in *. injection E as <-. do 2 f_equal. unfold coord.
    destruct (Nat.eqb_spec (length xs) 1) as [E|E]; [reflexivity|]. apply H. exact E. }
  { intros m Hm. cbn [avec aget]. rewrite coord_small by exact Hm. reflexivity. }
Qed.

Lemma table_unique n N X f g : light_table n N X f -> light_table n N X g -> forall m j, (m < N)%nat -> (j < n)%nat -> f m j = g m j.
Proof. intros [_ A] [_ B] m j Hm Hj. specialize (A m j Hm Hj). rewrite (B m j Hm Hj) in A. congruence. Qed.

Lemma kepler_described k n x xs os o : consts_ok k -> system k n x xs os -> kep_init k x = Ok o ->
  (forall i, (i O < n)%nat -> aget (o_t0 o) i = Fin (o_t0 (os (i O)))) /\
  (forall i, (i O < n)%nat -> aget (o_period o) i = Fin (o_period (os (i O)))).
Proof.
  intros kok sys Ho. destruct (system_orbit k n x xs os kok sys) as (o' & Ho' & _ & _ & _ & Oat). rewrite Ho in Ho'. apply Ok_inj in Ho'. subst o'.
  split; intros i Hi; [change (aget (o_t0 o) i) with (o_t0 (orbit_at i o))|change (aget (o_period o) i) with (o_period (orbit_at i o))];
    rewrite (Oat i Hi); reflexivity.
Qed.

Lemma interp_kepler : forall u1 u2 k n (x : kargs tens) xs os o cp r rs os' order use Q np tv,
  disk_flux u1 u2 <> 0 -> consts_ok k -> system k n x xs os -> kep_init k x = Ok o -> elements n r rs ->
  use = false \/ (forall j, (j < n)%nat -> ka_ecc (xs j) = None /\ 0 <= rs j /\ o_r_star (os j) + rs j < o_a (os j) /\ 0 <= o_sin_incl (os j)) ->
  (0 <= Q)%Z -> counted np tv n ->
  ash (o_t0 o) = Ok (if Nat.leb n 1 then [] else [n]) -> ash (o_period o) = Ok (if Nat.leb n 1 then [] else [n]) ->
  let f j s := flux_at u1 u2 (pos k (os j) Relative s None false) (rs j) (o_r_star (os j)) in
  interpolating n (fun t => get_light_curve (ld_init (Fin u1) (Fin u2)) (Some (kep_api k (lift_cp cp) o)) (Some r) (Some t) None os' order (Some use) false)
    Q np tv (o_t0 o) (o_period o) f (fun j => o_t0 (os j)) (fun j => o_period (os j)) /\
  forall j s (z : Z), (j < n)%nat -> f j (s + IZR z * o_period (os j)) = f j s.
Proof.
  intros u1 u2 k n x xs os o cp r rs os' order use Q np tv Hd kok sys Ho Hr Hu HQ HC S0 SP f.
  destruct (kepler_described k n x xs os o kok sys Ho) as [D0 DP].
  assert (B : pointwise n (fun t => get_light_curve (ld_init (Fin u1) (Fin u2)) (Some (kep_api k (lift_cp cp) o)) (Some r) (Some t) None os' order (Some use) false) f).
  { intro l. destruct (avec_vector l) as [V1 V2].
    destruct (lc_kepler u1 u2 k n x xs os o (lift_cp cp) r rs _ _ _ os' order Hd kok sys Ho Hr V1 V2) as (X & HX & TX).
    destruct use.
    - destruct Hu as [Hu|Hu]; [discriminate Hu|].
      destruct (masked_kepler u1 u2 k n x xs os o cp r rs _ _ _ None 0 0 Hd kok sys Ho Hr (fun j Hj => proj1 (proj2 (Hu j Hj))) V1 V2)
        as (X' & Y' & g & E1 & E2 & T1 & T2).
      { cbn. lra. } { lia. } { left; reflexivity. }
      { left. intros j Hj. destruct (Hu j Hj) as (U1 & U2 & U3 & U4). split; [exact U1|]. split; assumption. }
      cbn [one_texp] in E1, E2.
      rewrite (lc_order_unused _ _ _ _ _ _ os' order) in E1. rewrite (lc_order_unused _ _ _ _ _ _ os' order) in E2.
      rewrite HX in E2. apply Ok_inj in E2. subst Y'. exists X'. split; [exact E1|].
      destruct T1 as [T1 T3]. split; [exact T1|]. intros m j Hm Hj. rewrite T3 by assumption. f_equal.
      apply (table_unique _ _ _ _ _ T2 TX); assumption.
    - exists X. split; [exact HX|exact TX]. }
  split.
  - constructor; try assumption.
    + exists n. split; [lia|exact B].
    + split; [|exact D0]. destruct (Nat.leb n 1); [exact S0|]. exists n. split; [lia|exact S0].
    + split; [|exact DP]. destruct (Nat.leb n 1); [exact SP|]. exists n. split; [lia|exact SP].
    + intros j Hj. apply (ph_period _ (sy_phys _ _ _ _ _ sys j Hj)).
  - intros j s z Hj. unfold f.
    destruct (periodic_motion k (xs j) (os j) s z None false None None kok (sy_init _ _ _ _ _ sys j Hj) (sy_phys _ _ _ _ _ sys j Hj)) as [A _].
    cbv zeta in A. rewrite (proj1 (A Relative)). reflexivity.
Qed.

(** ** errors *)
Lemma interp_uncounted : forall base Q t0 period t, interpolated_light_curve base Q None None t0 period t = Err ValueError.
Proof. reflexivity. Qed.
Lemma counted_ok np tv n : counted np tv n -> exists z, planet_count np tv = Ok z /\ Z.of_nat n = Z.max 1 z.
Proof.
  intro HC. unfold counted in HC. unfold planet_count. destruct np as [z|]; [exists z; split; [reflexivity|exact HC]|].
  destruct tv as [q|]; [|contradiction]. exists (Z.of_nat q). split; [reflexivity|lia].
Qed.
Lemma interp_one_vector : forall base Q np tv t0 period N t ts d,
  counted np tv 1 -> observed N t ts -> ash t0 = Ok [d] \/ (ash t0 = Ok [] /\ ash period = Ok [d]) ->
  interpolated_light_curve base Q np tv t0 period t = Err AssertErr.
Proof.
  intros base Q np tv t0 period N t ts d HC HT HS. destruct (counted_ok _ _ _ HC) as [z [Hz Hn]].
  unfold interpolated_light_curve. rewrite Hz. cbn [rbind]. rewrite (proj1 HT). cbn [rbind]. rewrite (entries_ok _ _ _ HT). cbn [rbind].
  replace (z <=? 1)%Z with true by (symmetry; apply Z.leb_le; lia). unfold scalar_of.
  destruct HS as [HS|[HS HS']]; rewrite HS; [reflexivity|]. cbn [rbind]. rewrite HS'. reflexivity.
Qed.
Lemma interp_shared : forall n base Q np tv t0 period N t ts,
  counted np tv n -> (2 <= n)%nat -> observed N t ts -> ash t0 = Ok [] ->
  interpolated_light_curve base Q np tv t0 period t = Err IndexErr.
Proof.
  intros n base Q np tv t0 period N t ts HC H2 HT HS. destruct (counted_ok _ _ _ HC) as [z [Hz Hn]].
  unfold interpolated_light_curve. rewrite Hz. cbn [rbind]. rewrite (proj1 HT). cbn [rbind]. rewrite (entries_ok _ _ _ HT). cbn [rbind].
  replace (z <=? 1)%Z with false by (symmetry; apply Z.leb_gt; lia).
  replace (Z.to_nat z) with (S (Nat.pred n)) by lia. cbn [seq map_res]. unfold tix at 1. rewrite HS. reflexivity.
Qed.

(** ** examples *)
Lemma interp_example : exists o, disk_flux (3 / 10) (2 / 10) <> 0 /\ consts_ok ek /\
  system ek 1 (ex_scalar_args 0) (fun _ => ex_b_args 0) (fun _ => o) /\
  elements 1 (scalar (1 / 10)) (fun _ => 1 / 10) /\
  (ka_ecc (ex_b_args 0) = None /\ 0 <= 1 / 10 /\ o_r_star o + 1 / 10 < o_a o /\ 0 <= o_sin_incl o) /\
  counted None (Some 1%nat) 1 /\ counted (Some 1%Z) None 1 /\
  (forall o', kep_init ek (ex_scalar_args 0) = Ok o' -> ash (o_t0 o') = Ok [] /\ ash (o_period o') = Ok []) /\
  observed 3 (vector 3 INR) INR.
Proof.
  destruct ex_scalar as (o & S & E1 & E2 & E3 & E4 & E5 & E6 & E7). exists o.
  split; [apply L_light9.disk_example|]. split; [exact ek_ok|]. split; [exact S|].
  split. { split; [exists []; split; reflexivity|]. intros j Hj. reflexivity. }
  split. { split; [reflexivity|]. split; [lra|]. split; [rewrite E5; lra|exact E7]. }
  split; [reflexivity|]. split; [reflexivity|].
  split. { intros o' Ho'. cbn in Ho'. apply Ok_inj in Ho'. subst o'. split; reflexivity. }
  split; [reflexivity|]. intros m Hm. apply vector_at. exact Hm.
Qed.
