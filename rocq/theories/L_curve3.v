(** * What a transit light curve determines: light curves *)
From Coq Require Import Reals Lra Lia Psatz List Bool Arith ZArith.
From Coquelicot Require Import Coquelicot.
From Verif Require Import Num CoreOps Inst CoreFlux M_units M_kepler M_fin M_tensor M_limbdark M_simple Spec_orbit Spec_params Spec_array Spec_simple Spec_light Spec_depth Spec_curve
  L_real L_orbit L_params3 L_params4 L_simple L_transit L_flux L_area L_depth L_light1 L_light3 L_light4 L_light7 L_light8 L_depth2 L_depth3 L_depth4 L_curve L_curve2.
Import ListNotations.
Open Scope R_scope.

Lemma light_value u1 u2 k n (x : kargs tens) xs os o cp r rs use j t : disk_flux u1 u2 <> 0 -> consts_ok k -> system k n x xs os -> kep_init k x = Ok o -> elements n r rs -> plain_mask use n xs os rs -> (j < n)%nat ->
  forall v, light_at u1 u2 (kep_api k (lift_cp cp) o) n r use j t v <-> v = flux_at u1 u2 (pos k (os j) Relative t None false) (rs j) (o_r_star (os j)).
Proof.
  intros Hd kok sys Ho Hr Hm Hj v. assert (V1 : is_vector 1 (vector 1 (fun _ => t))) by (split; [intros s E i i' H; reflexivity|reflexivity]). assert (V2 : forall m, (m < 1)%nat -> aget (vector 1 (fun _ => t)) (at_time m) = Fin ((fun _ => t) m)) by reflexivity.
  destruct (lc_kepler u1 u2 k n x xs os o (lift_cp cp) r rs 1 _ _ 7 0 Hd kok sys Ho Hr V1 V2) as (X & EX & TX).
  assert (W : exists Y, get_light_curve (ld_init (Fin u1) (Fin u2)) (Some (kep_api k (lift_cp cp) o)) (Some r) (Some (vector 1 (fun _ => t))) None 7 0 use false = Ok Y /\ light_table n 1 Y (fun m j => flux_at u1 u2 (pos k (os j) Relative t None false) (rs j) (o_r_star (os j)))).
  { assert (M : use = Some false \/ (use = None \/ use = Some true) /\ forall j, (j < n)%nat -> 0 <= rs j /\ ka_ecc (xs j) = None /\ o_r_star (os j) + rs j < o_a (os j) /\ 0 <= o_sin_incl (os j)) by (destruct Hm as [->|Hm]; [left; reflexivity|destruct use as [[|]|]; auto]).
    destruct M as [->|[U M]]; [exists X; split; assumption|].
    destruct (masked_kepler u1 u2 k n x xs os o cp r rs 1 _ _ None 7 0 Hd kok sys Ho Hr (fun i Hi => proj1 (M i Hi)) V1 V2 ltac:(cbn; lra) ltac:(lia) ltac:(left; reflexivity) ltac:(left; intros i Hi; apply (M i Hi))) as (X' & Y' & f & E1 & E2 & T1 & T2).
    change (one_texp None) with (@None tens) in E1, E2. rewrite EX in E2. apply Ok_inj in E2. subst Y'. exists X'. split.
    - destruct U as [->| ->]; exact E1.
    - destruct T1 as [T1 T1']. split; [exact T1|]. intros m i Hm' Hi. rewrite (T1' m i Hm' Hi), <- (proj2 T2 m i Hm' Hi). apply (proj2 TX m i Hm' Hi). }
  destruct W as (Y & EY & TY). split.
  - intros (X' & f & E1 & T1 & <-). rewrite EY in E1. apply Ok_inj in E1. subst X'. assert (A := proj2 T1 O j ltac:(lia) Hj). rewrite (proj2 TY O j ltac:(lia) Hj) in A. congruence.
  - intros ->. exists Y. eexists. split; [exact EY|]. split; [exact TY|reflexivity].
Qed.
Section Two.
Variables (k : consts) (x x' : kargs R) (o o' : orbit R) (r r' : R).
Hypothesis kok : consts_ok k.
Hypothesis Ho : kep_init k x = Ok o.
Hypothesis ph : physical o.
Hypothesis tr : transiting o r.
Hypothesis Ho' : kep_init k x' = Ok o'.
Hypothesis ph' : physical o'.
Hypothesis tr' : transiting o' r'.
Let f u1 u2 t := flux_at u1 u2 (pos k o Relative t None false) r (o_r_star o).
Let f' u1 u2 t := flux_at u1 u2 (pos k o' Relative t None false) r' (o_r_star o').
Lemma dips u1 u2 t : shining u1 u2 -> (f u1 u2 t < 0 <-> exists z : Z, Rabs (t - (o_t0 o + IZR z * o_period o)) < half_time o (o_r_star o + r)).
Proof.
  intro Hs. assert (HP := ph_period _ ph). destruct (sizes o r ph tr) as (S1 & S2 & S3 & S4). assert (Hr := tr_radius _ _ tr). destruct (half_range o r ph tr (o_r_star o + r) ltac:(lra) ltac:(lra)) as [W _]. split.
  - intro H. destruct (near_mid (o_t0 o) (o_period o) t HP) as [z Hz]. exists z. destruct (dims_iff k x o r kok Ho ph tr u1 u2 z (t - (o_t0 o + IZR z * o_period o)) Hs Hz) as [[D _] _]. apply D. replace (o_t0 o + IZR z * o_period o + (t - (o_t0 o + IZR z * o_period o))) with t by ring. exact H.
  - intros [z Hz]. destruct (dims_iff k x o r kok Ho ph tr u1 u2 z (t - (o_t0 o + IZR z * o_period o)) Hs ltac:(lra)) as [[_ D] _]. specialize (D Hz). replace (o_t0 o + IZR z * o_period o + (t - (o_t0 o + IZR z * o_period o))) with t in D by ring. exact D.
Qed.
End Two.
Section Same.
Variables (k : consts) (x x' : kargs R) (o o' : orbit R) (r r' : R).
Hypothesis kok : consts_ok k.
Hypothesis Ho : kep_init k x = Ok o.
Hypothesis ph : physical o.
Hypothesis tr : transiting o r.
Hypothesis Ho' : kep_init k x' = Ok o'.
Hypothesis ph' : physical o'.
Hypothesis tr' : transiting o' r'.
Lemma half_inj c c' : o_period o' = o_period o -> half_time o' c' = half_time o c -> 0 <= chord o c <= 1 -> 0 <= chord o' c' <= 1 -> chord o' c' = chord o c.
Proof.
  intros EP E H H'. assert (HP := ph_period _ ph). assert (Hpi := PI_RGT_0). unfold half_time in E. rewrite EP in E. apply Rmult_eq_reg_l in E; [|apply Rgt_not_eq, Rdiv_lt_0_compat; lra].
  assert (G : forall q, 0 <= q <= 1 -> sin (asin (sqrt q)) * sin (asin (sqrt q)) = q). { intros q Hq. assert (S2 := sqrt_sqrt q (proj1 Hq)). assert (S0 := sqrt_pos q). rewrite sin_asin; [exact S2|]. split; [lra|]. apply Rnot_lt_le. intro. nra. }
  rewrite <- (G _ H), <- (G _ H'), E. reflexivity.
Qed.
Lemma same_dips u1 u2 u1' u2' : shining u1 u2 -> shining u1' u2' ->
  (forall t, flux_at u1 u2 (pos k o Relative t None false) r (o_r_star o) = flux_at u1' u2' (pos k o' Relative t None false) r' (o_r_star o')) -> same_times o o' /\ chord o' (o_r_star o' + r') = chord o (o_r_star o + r).
Proof.
  intros Hs Hs' E. assert (HP := ph_period _ ph). assert (HP' := ph_period _ ph').
  destruct (sizes o r ph tr) as (S1 & S2 & S3 & S4). assert (Hr := tr_radius _ _ tr). destruct (half_range o r ph tr (o_r_star o + r) ltac:(lra) ltac:(lra)) as [W Wp]. destruct (chord_range o r ph tr (o_r_star o + r) ltac:(lra) ltac:(lra)) as [C _].
  destruct (sizes o' r' ph' tr') as (S1' & S2' & S3' & S4'). assert (Hr' := tr_radius _ _ tr'). destruct (half_range o' r' ph' tr' (o_r_star o' + r') ltac:(lra) ltac:(lra)) as [W' Wp']. destruct (chord_range o' r' ph' tr' (o_r_star o' + r') ltac:(lra) ltac:(lra)) as [C' _].
  specialize (Wp ltac:(lra)). specialize (Wp' ltac:(lra)).
  destruct (windows (o_t0 o) (o_period o) (half_time o (o_r_star o + r)) (o_t0 o') (o_period o') (half_time o' (o_r_star o' + r')) ltac:(lra) ltac:(lra)) as (Q1 & Q2 & Q3).
  - intro t. rewrite <- (dips k x o r kok Ho ph tr u1 u2 t Hs), <- (dips k x' o' r' kok Ho' ph' tr' u1' u2' t Hs'), E. reflexivity.
  - split; [split; assumption|]. apply half_inj; try assumption; lra.
Qed.
Lemma chord_contact (q : orbit R) c : chord q (o_r_star q + c) = contact q c.
Proof. reflexivity. Qed.
Lemma uniform_shines : shining 0 0.
Proof. intros mu _. rewrite uniform_intensity. lra. Qed.
Lemma same_bottom : full_transit o r -> full_transit o' r' ->
  (forall t, flux_at 0 0 (pos k o Relative t None false) r (o_r_star o) = flux_at 0 0 (pos k o' Relative t None false) r' (o_r_star o')) ->
  r' / o_r_star o' = r / o_r_star o /\ chord o' (o_r_star o' - r') = chord o (o_r_star o - r).
Proof.
  intros F F' E. destruct (same_dips 0 0 0 0 uniform_shines uniform_shines E) as [[EP [z Ez]] EC]. assert (HP := ph_period _ ph).
  destruct (sizes o r ph tr) as (S1 & S2 & S3 & S4). assert (Hr := tr_radius _ _ tr). destruct (sizes o' r' ph' tr') as (S1' & S2' & S3' & S4'). assert (Hr' := tr_radius _ _ tr').
  assert (In : forall q c, full_transit q c -> physical q -> 0 <= o_r_star q - c <= o_r_star q + c /\ o_b q * o_b q * (o_r_star q * o_r_star q) <= (o_r_star q - c) * (o_r_star q - c)).
  { intros q c [T B] Hq. assert (Z := tr_radius _ _ T). assert (Ab := Rabs_pos (o_b q)). assert (Z' := ph_r_star _ Hq). assert (H0 : 0 <= Rabs (o_b q) * o_r_star q) by (apply Rmult_le_pos; lra). split; [lra|].
    replace (o_b q * o_b q * (o_r_star q * o_r_star q)) with ((Rabs (o_b q) * o_r_star q) * (Rabs (o_b q) * o_r_star q)); [apply Rmult_le_compat; lra|]. assert (S := Rsqr_abs (o_b q)). unfold Rsqr in S. rewrite S. ring. }
  destruct (In o r F ph) as [I1 I2]. destruct (In o' r' F' ph') as [I1' I2'].
  destruct (half_range o r ph tr (o_r_star o - r) I1 I2) as [W _]. destruct (half_range o' r' ph' tr' (o_r_star o' - r') I1' I2') as [W' _]. destruct (chord_range o r ph tr (o_r_star o - r) I1 I2) as [C _]. destruct (chord_range o' r' ph' tr' (o_r_star o' - r') I1' I2') as [C' _].
  assert (A : forall d, Rabs d <= o_period o / 2 -> let v := flux_at 0 0 (pos k o Relative (o_t0 o + IZR z * o_period o + d) None false) r (o_r_star o) in
    (v = - (r / o_r_star o * (r / o_r_star o)) <-> Rabs d <= half_time o (o_r_star o - r)) /\ - (r / o_r_star o * (r / o_r_star o)) <= v /\
    (v = - (r' / o_r_star o' * (r' / o_r_star o')) <-> Rabs d <= half_time o' (o_r_star o' - r')) /\ - (r' / o_r_star o' * (r' / o_r_star o')) <= v).
  { intros d Hd v. destruct (bottom_iff k x o r kok Ho ph tr z d F Hd) as [B1 B2]. destruct (bottom_iff k x' o' r' kok Ho' ph' tr' 0 d F' ltac:(rewrite EP; exact Hd)) as [B3 B4].
    rewrite Rmult_0_l, Rplus_0_r, Ez, <- E in B3, B4. auto. }
  assert (A0 := A 0 ltac:(rewrite Rabs_R0; lra)). cbv zeta in A0. rewrite Rabs_R0 in A0. destruct A0 as ([_ a1] & a2 & [_ a3] & a4). specialize (a1 (proj1 W)). specialize (a3 (proj1 W')).
  assert (K : 0 < r / o_r_star o) by (apply Rdiv_lt_0_compat; lra). assert (K' : 0 < r' / o_r_star o') by (apply Rdiv_lt_0_compat; lra).
  assert (Er : r' / o_r_star o' = r / o_r_star o) by nra. split; [exact Er|]. apply half_inj; [exact EP| |lra|lra].
  assert (B : forall d, Rabs d <= o_period o / 2 -> (Rabs d <= half_time o (o_r_star o - r) <-> Rabs d <= half_time o' (o_r_star o' - r'))). { intros d Hd. destruct (A d Hd) as (b1 & _ & b2 & _). rewrite Er in b2. rewrite <- b1, <- b2. reflexivity. }
  apply Rle_antisym.
  - assert (Q := proj2 (B (half_time o' (o_r_star o' - r')) ltac:(rewrite Rabs_pos_eq; lra))). rewrite Rabs_pos_eq in Q by lra. apply Q. lra.
  - assert (Q := proj1 (B (half_time o (o_r_star o - r)) ltac:(rewrite Rabs_pos_eq; lra))). rewrite Rabs_pos_eq in Q by lra. apply Q. lra.
Qed.
(** the two contacts give the impact parameter and the semi-major axis *)
Lemma two_contacts q b2 u2 b2' u2' : 0 < q -> b2 < u2 -> b2' < u2' ->
  ((1 + q) * (1 + q) - b2') / (u2' - b2') = ((1 + q) * (1 + q) - b2) / (u2 - b2) -> ((1 - q) * (1 - q) - b2') / (u2' - b2') = ((1 - q) * (1 - q) - b2) / (u2 - b2) -> b2' = b2 /\ u2' = u2.
Proof.
  intros Hq H H' E1 E2. assert (D : 4 * q / (u2' - b2') = 4 * q / (u2 - b2)). { replace (4 * q / (u2' - b2')) with (((1 + q) * (1 + q) - b2') / (u2' - b2') - ((1 - q) * (1 - q) - b2') / (u2' - b2')) by (field; lra). rewrite E1, E2. field. lra. }
  assert (X : u2' - b2' = u2 - b2). { apply (Rmult_eq_reg_l (4 * q / (u2 - b2))); [|apply Rgt_not_eq, Rdiv_lt_0_compat; lra]. rewrite <- D at 1. field. lra. }
  rewrite X in E1. apply Rmult_eq_reg_r in E1; [lra|]. apply Rinv_neq_0_compat. lra.
Qed.
Lemma chord_scaled (q : orbit R) c : 0 < o_r_star q -> 0 < o_a q * o_a q - o_b q * o_b q * (o_r_star q * o_r_star q) -> chord q c = (c / o_r_star q * (c / o_r_star q) - o_b q * o_b q) / (o_a q / o_r_star q * (o_a q / o_r_star q) - o_b q * o_b q).
Proof.
  intros H D. unfold chord. replace (o_a q / o_r_star q * (o_a q / o_r_star q) - o_b q * o_b q) with ((o_a q * o_a q - o_b q * o_b q * (o_r_star q * o_r_star q)) / (o_r_star q * o_r_star q)) by (field; lra). field. repeat split; lra.
Qed.
Lemma same_geometry : full_transit o r -> full_transit o' r' ->
  (forall t, flux_at 0 0 (pos k o Relative t None false) r (o_r_star o) = flux_at 0 0 (pos k o' Relative t None false) r' (o_r_star o')) ->
  same_times o o' /\ r' / o_r_star o' = r / o_r_star o /\ Rabs (o_b o') = Rabs (o_b o) /\ o_a o' / o_r_star o' = o_a o / o_r_star o.
Proof.
  intros F F' E. destruct (same_dips 0 0 0 0 uniform_shines uniform_shines E) as [T EC]. destruct (same_bottom F F' E) as [Er EB]. split; [exact T|]. split; [exact Er|].
  destruct (sizes o r ph tr) as (S1 & S2 & S3 & S4). assert (Hr := tr_radius _ _ tr). destruct (sizes o' r' ph' tr') as (S1' & S2' & S3' & S4'). assert (Hr' := tr_radius _ _ tr'). assert (Ha := ph_a _ ph). assert (Ha' := ph_a _ ph').
  assert (U : forall q, 0 < o_r_star q -> 0 < o_a q * o_a q - o_b q * o_b q * (o_r_star q * o_r_star q) -> o_b q * o_b q < o_a q / o_r_star q * (o_a q / o_r_star q)).
  { intros q H D. assert (0 < (o_a q * o_a q - o_b q * o_b q * (o_r_star q * o_r_star q)) / (o_r_star q * o_r_star q)) by (apply Rdiv_lt_0_compat; [exact D|apply Rmult_lt_0_compat; exact H]). replace ((o_a q * o_a q - o_b q * o_b q * (o_r_star q * o_r_star q)) / (o_r_star q * o_r_star q)) with (o_a q / o_r_star q * (o_a q / o_r_star q) - o_b q * o_b q) in * by (field; lra). lra. }
  rewrite !chord_scaled in EC, EB by assumption.
  assert (P1 : forall R c, 0 < R -> (R + c) / R = 1 + c / R) by (intros R c h; field; lra). assert (P2 : forall R c, 0 < R -> (R - c) / R = 1 - c / R) by (intros R c h; field; lra).
  rewrite !P1, Er in EC by assumption. rewrite !P2, Er in EB by assumption.
  destruct (two_contacts (r / o_r_star o) (o_b o * o_b o) (o_a o / o_r_star o * (o_a o / o_r_star o)) (o_b o' * o_b o') (o_a o' / o_r_star o' * (o_a o' / o_r_star o'))) as [G1 G2]; [apply Rdiv_lt_0_compat; assumption|apply U; assumption|apply U; assumption|exact EC|exact EB|].
  split; [apply Rsqr_eq_abs_0; exact G1|]. assert (0 < o_a o / o_r_star o) by (apply Rdiv_lt_0_compat; assumption). assert (0 < o_a o' / o_r_star o') by (apply Rdiv_lt_0_compat; assumption). nra.
Qed.
(** conversely nothing else matters, for any star *)
Lemma geometry_enough u1 u2 : same_times o o' -> r' / o_r_star o' = r / o_r_star o -> Rabs (o_b o') = Rabs (o_b o) -> o_a o' / o_r_star o' = o_a o / o_r_star o ->
  forall t, flux_at u1 u2 (pos k o Relative t None false) r (o_r_star o) = flux_at u1 u2 (pos k o' Relative t None false) r' (o_r_star o').
Proof.
  intros [EP [z Ez]] Er Eb Ea t. assert (Hs := ph_r_star _ ph). assert (Hs' := ph_r_star _ ph'). assert (Ha := ph_a _ ph). assert (Ha' := ph_a _ ph').
  assert (W := where_it_is k x o r kok Ho ph tr z (t - (o_t0 o + IZR z * o_period o))). assert (W' := where_it_is k x' o' r' kok Ho' ph' tr' 0 (t - o_t0 o')). cbv zeta in W, W'.
  replace (o_t0 o + IZR z * o_period o + (t - (o_t0 o + IZR z * o_period o))) with t in W by ring. replace (o_t0 o' + 0 * o_period o' + (t - o_t0 o')) with t in W' by ring. rewrite Ez, EP in W'.
  set (p := pos k o Relative t None false) in *. set (p' := pos k o' Relative t None false) in *. set (th := 2 * PI * (t - (o_t0 o + IZR z * o_period o)) / o_period o) in *. destruct W as [W1 W2]. destruct W' as [W1' W2'].
  assert (Eb2 : o_b o' * o_b o' = o_b o * o_b o) by (apply Rsqr_eq_asb_1 in Eb; exact Eb).
  assert (Ap : apart p' / o_r_star o' = apart p / o_r_star o).
  { unfold apart. rewrite <- (sqrt_square (o_r_star o')) at 1 by lra. rewrite <- (sqrt_square (o_r_star o)) at 1 by lra. rewrite <- !sqrt_div_alt by (apply Rmult_lt_0_compat; assumption). f_equal. rewrite W1, W1'.
    replace (((o_a o' * o_a o' - o_b o' * o_b o' * (o_r_star o' * o_r_star o')) * (sin th * sin th) + o_b o' * o_b o' * (o_r_star o' * o_r_star o')) / (o_r_star o' * o_r_star o')) with ((o_a o' / o_r_star o' * (o_a o' / o_r_star o') - o_b o' * o_b o') * (sin th * sin th) + o_b o' * o_b o') by (field; lra).
    rewrite Ea, Eb2. field. lra. }
  unfold flux_at. fold (apart p) (apart p'). rewrite Ap, Er. unfold rel_flux.
  assert (Sg : 0 < vz p' / o_r_star o' <-> 0 < vz p / o_r_star o).
  { assert (Pos : forall q s c, 0 < q -> 0 < s -> forall a, 0 < a -> (0 < a * s * c / q <-> 0 < c)). { intros q s c Hq H a H'. assert (K : 0 < a * s / q) by (apply Rdiv_lt_0_compat; [apply Rmult_lt_0_compat; assumption|exact Hq]). replace (a * s * c / q) with (a * s / q * c) by (field; lra). split; intro Q; [|apply Rmult_lt_0_compat; assumption]. apply (Rmult_lt_reg_l (a * s / q)); lra. }
    rewrite W2, W2'. rewrite !Pos; try assumption; [reflexivity|apply (tr_front _ _ tr)|apply (tr_front _ _ tr')]. }
  destruct (Rlt_dec 0 (vz p' / o_r_star o')), (Rlt_dec 0 (vz p / o_r_star o)); tauto || reflexivity.
Qed.
Lemma same_density : same_times o o' -> o_a o' / o_r_star o' = o_a o / o_r_star o -> o_m_planet o * o_m_star o' = o_m_planet o' * o_m_star o -> 0 < o_m_star o -> 0 < o_m_star o' -> o_rho_star o' = o_rho_star o.
Proof.
  intros [EP _] Ea Em Hm Hm'. assert (Hpi := PI_RGT_0). assert (Hs := ph_r_star _ ph). assert (Hs' := ph_r_star _ ph'). assert (HP := ph_period _ ph). assert (Ha := ph_a _ ph). assert (Ha' := ph_a _ ph').
  assert (F := kep_init_facts k kok x o Ho ph). assert (F' := kep_init_facts k kok x' o' Ho' ph').
  assert (K := of_kepler3 k x o F). assert (K' := of_kepler3 k x' o' F'). assert (D := of_rho k x o F). assert (D' := of_rho k x' o' F'). rewrite (of_mtot k x o F) in K. rewrite (of_mtot k x' o' F'), EP in K'. assert (Gp : 0 < G_grav k) by apply (ok_G k kok).
  assert (R3 : 0 < o_r_star o * o_r_star o * o_r_star o) by (repeat apply Rmult_lt_0_compat; assumption). assert (R3' : 0 < o_r_star o' * o_r_star o' * o_r_star o') by (repeat apply Rmult_lt_0_compat; assumption).
  assert (E3 : o_a o' * o_a o' * o_a o' * (o_r_star o * o_r_star o * o_r_star o) = o_a o * o_a o * o_a o * (o_r_star o' * o_r_star o' * o_r_star o')).
  { assert (L : o_a o' = o_a o / o_r_star o * o_r_star o') by (rewrite <- Ea; field; lra). rewrite L. field. lra. }
  set (c := o_r_star o * o_r_star o * o_r_star o) in *. set (c' := o_r_star o' * o_r_star o' * o_r_star o') in *. set (A3 := o_a o * o_a o * o_a o) in *. set (A3' := o_a o' * o_a o' * o_a o') in *.
  assert (Em' : o_m_star o' * c = o_m_star o * c').
  { assert (P2 : 0 < o_period o * o_period o) by (apply Rmult_lt_0_compat; assumption). assert (N : (o_m_star o' + o_m_planet o') * c = (o_m_star o + o_m_planet o) * c').
    { apply (Rmult_eq_reg_l (G_grav k * (o_period o * o_period o))); [|apply Rgt_not_eq, Rmult_lt_0_compat; assumption].
      replace (G_grav k * (o_period o * o_period o) * ((o_m_star o' + o_m_planet o') * c)) with (G_grav k * (o_m_star o' + o_m_planet o') * (o_period o * o_period o) * c) by ring. rewrite K'.
      replace (G_grav k * (o_period o * o_period o) * ((o_m_star o + o_m_planet o) * c')) with (G_grav k * (o_m_star o + o_m_planet o) * (o_period o * o_period o) * c') by ring. rewrite K. rewrite !Rmult_assoc. f_equal. rewrite <- !Rmult_assoc. rewrite !(Rmult_assoc (PI * PI)). rewrite E3. reflexivity. }
    assert (Q : (o_m_star o' + o_m_planet o') * o_m_star o = (o_m_star o + o_m_planet o) * o_m_star o') by lra.
    assert (Mt : 0 < o_m_star o + o_m_planet o) by apply (ph_m_total _ ph). apply (Rmult_eq_reg_l (o_m_star o + o_m_planet o)); [|lra].
    replace ((o_m_star o + o_m_planet o) * (o_m_star o' * c)) with ((o_m_star o + o_m_planet o) * o_m_star o' * c) by ring. rewrite <- Q. replace ((o_m_star o' + o_m_planet o') * o_m_star o * c) with ((o_m_star o' + o_m_planet o') * c * o_m_star o) by ring. rewrite N. ring. }
  clearbody c c'. apply (Rmult_eq_reg_r (4 * PI * c * c')); [|apply Rgt_not_eq, Rmult_lt_0_compat; [apply Rmult_lt_0_compat; lra|assumption]].
  replace (o_rho_star o' * (4 * PI * c * c')) with (o_rho_star o' * (4 * PI * c') * c) by ring. replace (o_rho_star o * (4 * PI * c * c')) with (o_rho_star o * (4 * PI * c) * c') by ring. rewrite D, D'.
  replace (3 * o_m_star o' * gcc_per_sun k * c) with (3 * gcc_per_sun k * (o_m_star o' * c)) by ring. rewrite Em'. ring.
Qed.
End Same.
