(** * Rounding errors of light curves: SimpleTransitOrbit with the default mask *)
From Coq Require Import Reals List Bool Arith ZArith Lra Lia Psatz.
From Coquelicot Require Import Coquelicot.
From Verif Require Import Num CoreOps Inst CoreFlux M_units M_kepler M_fin M_tensor M_simple M_limbdark Spec_orbit Spec_params Spec_array Spec_simple Spec_light Spec_undef Spec_dist Spec_lip Spec_accuracy Spec_float Spec_float2 Spec_float3 Spec_float5
  L_real L_params3 L_transit4 L_fl L_tens L_shape L_shapeS L_transit3 L_array L_simple L_simple2 L_light1 L_light2 L_light3 L_light4 L_light7 L_lip2 L_lip3 L_dist3 L_undef L_float L_float8 L_float9 L_float15 L_float16 L_float17 L_float18 L_float19 L_float20 L_float21.
Import ListNotations.
Local Notation length := List.length.
Open Scope R_scope.

(** one planet: where the mask is false the flux is small *)
Section One.
Variable u : R.
Variable rd : rounder.
Hypothesis Acc : accurate u rd.
Variables u1 u2 : R.
Hypothesis Hlaw : 0 <= u1 /\ u1 + u2 <= 1 /\ 0 <= u1 + 2 * u2.
Variable x : sargs R.
Hypothesis G : graze_ok u x.
Variable r : R.
Hypothesis Hr : 0 <= r <= dflt 0 (sa_ror x) * dflt 1 (sa_r_star x).
Hypothesis Hreach : reach_ok u x r.
Let ok := proj1 G.
Lemma mask_small t e : 0 <= dflt 0 e -> 0 <= mask_error u x r t (dflt 0 e) /\ forall s, computed_mask rd x t (Some r) e = false -> Rabs (s - t) <= dflt 0 e / 2 ->
  Rabs (flux_at u1 u2 (spos x s) r (dflt 1 (sa_r_star x))) <= 32 * (r / dflt 1 (sa_r_star x) * (mask_error u x r t (dflt 0 e) / dflt 1 (sa_r_star x))).
Proof.
  intros He. destruct (conj (proj1 G) (proj2 G)) as (_ & Hror & Hb & Hg). destruct Hreach as [Hbr Hgg]. cbv zeta in Hbr, Hgg. assert (HR := so_r_star _ ok). assert (HD := so_duration _ ok). assert (HP := so_period _ ok). assert (U := proj1 Acc).
  destruct (mask_reach u rd Acc x ok Hror Hb Hg t r e (proj1 Hr) He Hbr Hgg) as [M _]. unfold mask_error. cbv zeta.
  set (b := dflt 0 (sa_b x)) in *. set (rs := dflt 1 (sa_r_star x)) in *. set (ror := dflt 0 (sa_ror x)) in *.
  set (T := sa_duration x / 2 * (half_reach x r / half_chord x)) in *. set (eta := time_error u x t + 13 * u * (grazing (1 + ror) b + grazing (r + rs) (b * rs)) * (T + dflt 0 e / 2)) in *.
  assert (CP : 0 < half_chord x). { unfold half_chord. fold b rs ror. apply Rmult_lt_0_compat; [exact HR|]. apply sqrt_lt_R0. assert (A := Rabs_pos b). assert (E : b * b = Rabs b * Rabs b) by (rewrite <- Rabs_mult, Rabs_pos_eq by apply Rle_0_sqr; reflexivity). rewrite E. nra. }
  assert (AG : 0 <= (r + rs) * (r + rs) - b * rs * (b * rs)). { assert (A := Rabs_pos (b * rs)). assert (E : b * rs * (b * rs) = Rabs (b * rs) * Rabs (b * rs)) by (rewrite <- Rabs_mult, Rabs_pos_eq by apply Rle_0_sqr; reflexivity). rewrite E. nra. }
  assert (HH : half_reach x r * half_reach x r = (r + rs) * (r + rs) - b * rs * (b * rs)) by (apply sqrt_sqrt; exact AG).
  assert (T0 : 0 <= T). { apply Rmult_le_pos; [lra|]. apply Rdiv_le_0_compat; [apply sqrt_pos|exact CP]. }
  assert (E0 : 0 <= eta).
  { unfold eta. assert (A := time_error_pos u rd Acc x ok t). assert (B := grazing_pos x Hb). fold b ror in B.
    assert (C : 0 <= grazing (r + rs) (b * rs)). { unfold grazing. apply Rdiv_le_0_compat; [apply Rle_0_sqr|]. assert (A' := Rabs_pos (b * rs)). assert (E : b * rs * (b * rs) = Rabs (b * rs) * Rabs (b * rs)) by (rewrite <- Rabs_mult, Rabs_pos_eq by apply Rle_0_sqr; reflexivity). rewrite E. nra. }
    assert (0 <= 13 * u * (grazing (1 + ror) b + grazing (r + rs) (b * rs)) * (T + dflt 0 e / 2)) by (apply Rmult_le_pos; [apply Rmult_le_pos; lra|lra]). lra. }
  assert (V0 := sspeed_pos x ok). rewrite (sspeed_chord x ok) in V0. split; [apply Rmult_le_pos; lra|]. intros s Hm Hs.
  apply (edge u rd Acc u1 u2 Hlaw x ok r Hr T eta s T0 E0).
  - unfold reach. rewrite (sspeed_chord x ok). change (chord_speed x) with (2 * half_chord x / sa_duration x). fold b rs.
    replace (2 * half_chord x / sa_duration x * T) with (half_reach x r) by (unfold T; field; split; apply Rgt_not_eq; assumption).
    rewrite HH. rewrite <- (sqrt_square (rs + r)) by lra. apply sqrt_le_1_alt. lra.
  - assert (Far : T + dflt 0 e / 2 - eta <= Rabs (sdt x t)).
    { apply Rnot_lt_le. intro h. apply sdt_lt in h; [|exact HP]. apply M in h. rewrite Hm in h. discriminate h. }
    assert (A := sdt_lip x ok t s). rewrite (Rabs_minus_sym t s) in A. lra.
Qed.
End One.

Lemma simple_mask_atM rd (x : sargs tens) (t : tens) (r texp : option tens) i : aget (@simple_mask tens btens (rounded_tens rd) (@simple_init tens btens (rounded_tens rd) x) t r texp) i
  = @simple_mask fl bool (rounded_fl rd) (@simple_init fl bool (rounded_fl rd) (map_sargs (fun a : tens => aget a i) x)) (aget t (fun d => i (S d)))
      (option_map (fun a : tens => aget a i) r) (option_map (fun a : tens => aget a i) texp).
Proof.
  destruct x as [? ? [?|] [?|] [?|] [?|]], r, texp; unfold simple_mask, simple_dt, simple_init, map_sargs;
  cbn [s_period s_t0 s_b s_duration s_r_star s_b_norm s_speed s_half_period s_ref_time M_simple.sa_period M_simple.sa_duration M_simple.sa_t0 M_simple.sa_b M_simple.sa_r_star M_simple.sa_ror dflt option_map npw];
  change (@nlt tens btens (rounded_tens rd)) with (amap2 flt); cbn [aget amap2]; change (@nlt fl bool (rounded_fl rd)) with flt; f_equal; cbn [nabs nadd nsub nmul ndiv nsqrt nmod npadr nlit rounded_tens amap amap2 aget alit apadr]; reflexivity.
Qed.

Section Simple.
Variable u : R.
Variable rd : rounder.
Hypothesis Acc : accurate u rd.
Hypothesis One : rd OLit 1 0 1 = 1.
Local Instance NF : Num fl bool | 0 := rounded_fl rd.
Local Instance NT : Num tens btens | 0 := rounded_tens rd.
Variables (n : nat) (x : sargs tens) (xs : nat -> sargs R).
Hypothesis sys : simple_system n x xs.
Hypothesis G : forall j, (j < n)%nat -> graze_ok u (xs j).
Variables (r : tens) (rs : nat -> R).
Hypothesis Hr : elements n r rs.
Hypothesis Rr : forall j, (j < n)%nat -> 0 <= rs j <= dflt 0 (sa_ror (xs j)) * dflt 1 (sa_r_star (xs j)).
Hypothesis Hreach : forall j, (j < n)%nat -> reach_ok u (xs j) (rs j).
Variables (N : nat) (t : tens) (ts : nat -> R).
Hypothesis Ht : is_vector N t.
Hypothesis Vt : forall m, (m < N)%nat -> aget t (at_time m) = Fin (ts m).
Variable e : option R.
Hypothesis He : 0 <= dflt 0 e.
Ltac snl := repeat first [assumption | apply Sn_lit | apply Sn_map | apply Sn_map2 | apply dflt_sn ].
Let o := simple_init x.
Let r' := areshape (rmap (fun s => [prod s]) (ash r)) r.

Lemma r'_sn : Sn n r'.
Proof. destruct Hr as ((sr & Sr & Pr) & _). exact (rM_sn n r sr Sr Pr). Qed.
Lemma mask_EN : EN n N (simple_mask (B := btens) o t (Some r') (one_texp e)).
Proof.
  assert (E : EN n N (simple_dt o t)) by exact (simple_dtM rd n x xs sys [N] t (proj2 Ht)). destruct (simple_snM rd n x xs sys) as (S1 & S2 & S3 & S4). assert (S5 := r'_sn).
  unfold simple_mask. fold o in S1, S2, S3, S4. apply EN_map2l; [apply EN_map; exact E|]. destruct e; cbn [one_texp option_map npw]; snl.
Qed.
Lemma mask_val m j : (m < N)%nat -> (j < n)%nat -> aget (simple_mask (B := btens) o t (Some r') (one_texp e)) (cons_ix j (cons_ix m ix0)) = computed_mask rd (xs j) (ts m) (Some (rs j)) e.
Proof.
  intros Hm Hj. destruct Hr as ((sr & Sr & Pr) & Vr). destruct (G j Hj) as (ok & Hror & Hb & Hg). destruct (Hreach j Hj) as [H1 H2]. cbv zeta in H1, H2.
  assert (GP := grazing_pos (xs j) Hb). assert (U := proj1 Acc).
  assert (H3 : u * grazing (rs j + dflt 1 (sa_r_star (xs j))) (dflt 0 (sa_b (xs j)) * dflt 1 (sa_r_star (xs j))) <= 1 / 200) by (assert (0 <= u * grazing (1 + dflt 0 (sa_ror (xs j))) (dflt 0 (sa_b (xs j)))) by (apply Rmult_le_pos; lra); lra).
  rewrite <- (proj2 (proj2 (computed_finite u rd Acc (xs j) ok Hror Hb Hg)) (ts m) (rs j) e (proj1 (Rr j Hj)) H1 H3).
  assert (A := sargs_at_any n x xs sys (cons_ix j (cons_ix m ix0)) Hj). cbn [cons_ix] in A. rewrite <- A.
  assert (Tm := time_at' N t ts Ht Vt j m Hm). assert (Rj : aget r' (cons_ix j (cons_ix m ix0)) = Fin (rs j)).
  { refine (eq_trans (rM_val n r sr Sr Pr (cons_ix j (cons_ix m ix0)) Hj) _). apply Vr. exact Hj. }
  rewrite <- Tm, <- Rj. refine (eq_trans (simple_mask_atM rd x t (Some r') (one_texp e) (cons_ix j (cons_ix m ix0))) _). clearbody r'. destruct e; reflexivity.
Qed.
Definition kept (m : nat) : bool := existsb (fun j => computed_mask rd (xs j) (ts m) (Some (rs j)) e) (seq 0 n).
Lemma mask_list : oa_in_transit (computed_simple rd x) t r' (one_texp e) false = Ok (filter kept (seq 0 N)).
Proof.
  unfold computed_simple. cbn [oa_in_transit simple_api]. unfold simple_in_transit, tsize. rewrite (proj2 Ht). cbn [rmap rbind fold_right]. rewrite Nat.mul_1_r.
  assert (E := mask_EN). unfold EN in E. unfold arange_mask, tany_last. change (@simple_init tens btens (rounded_tens rd) x) with o.
  change (@simple_mask tens btens (rounded_tens rd) o t (Some r') (one_texp e)) with (simple_mask (B := btens) o t (Some r') (one_texp e)). rewrite E. cbn [ash aget]. rewrite Nat.eqb_refl. f_equal.
  apply filter_ext_in. intros m Hm. apply in_seq in Hm. unfold kept. assert (EE : forall l, (forall j, In j l -> (j < n)%nat) -> existsb (fun j => aget (simple_mask (B := btens) o t (Some r') (one_texp e)) (cons_ix j (cons_ix m ix0))) l = existsb (fun j => computed_mask rd (xs j) (ts m) (Some (rs j)) e) l).
  { induction l as [|j l IH]; intro Hl; [reflexivity|]. cbn [existsb]. rewrite IH by (intros; apply Hl; right; assumption). rewrite mask_val; [reflexivity|lia|]. apply Hl. left. reflexivity. }
  apply EE. intros j Hj. apply in_seq in Hj. lia.
Qed.
Lemma not_kept m j : (j < n)%nat -> (m < N)%nat -> ~ In m (filter kept (seq 0 N)) -> computed_mask rd (xs j) (ts m) (Some (rs j)) e = false.
Proof.
  intros Hj Hm H. destruct (computed_mask rd (xs j) (ts m) (Some (rs j)) e) eqn:E; [|reflexivity]. exfalso. apply H. apply filter_In. split; [apply in_seq; lia|]. apply existsb_exists. exists j. split; [apply in_seq; lia|exact E].
Qed.

Variable eps : R.
Variable F : FluxOp.
Hypothesis HF : solves eps F.
Variables u1 u2 : R.
Hypothesis Hlaw : physical_law (intensity u1 u2).
Local Notation rst j := (dflt 1 (sa_r_star (xs j))).
Let law := proj1 (law_iff u1 u2) Hlaw.
Variables (osam order : Z) (nodes weights : list R).
Hypothesis St : stencil osam order = Ok (nodes, weights).
Let PF := fun (j : nat) (t : fl) => fin3 (computed_position rd (xs j) (value t)).
Lemma masked_near (f d : nat -> nat -> R) :
  (forall m j, (m < N)%nat -> (j < n)%nat -> exists w, rowM rd F (computed_law rd u1 u2) PF (fun j => Fin (rst j)) r (one_texp e) nodes weights j (Fin (ts m)) (Fin (dflt 0 e)) = Fin w /\ Rabs (w - f m j) <= d m j) ->
  (forall m j, (m < N)%nat -> (j < n)%nat -> computed_mask rd (xs j) (ts m) (Some (rs j)) e = false -> Rabs (f m j) <= 32 * (rs j / rst j * (mask_error u (xs j) (rs j) (ts m) (dflt 0 e) / rst j))) ->
  table_near n N (computed_curve rd F u1 u2 (Some (computed_simple rd x)) (Some r) (Some t) (one_texp e) osam order None false)
    f (fun m j => d m j + 32 * (rs j / rst j * (mask_error u (xs j) (rs j) (ts m) (dflt 0 e) / rst j))).
Proof.
  intros HW HM. destruct Hr as ((sr & Sr & Pr) & Vr).
  destruct (simple_answersM u rd Acc One n x xs sys (fun j Hj => proj1 (G j Hj)) (fun j Hj => proj1 (proj2 (G j Hj))) (fun j Hj => proj1 (proj2 (proj2 (G j Hj)))) (fun j Hj => proj2 (proj2 (proj2 (G j Hj))))) as [HA HS].
  assert (Ft : forall m, (m < N)%nat -> finite (aget t (at_time m))) by (intros m Hm; exists (ts m); apply Vt; exact Hm).
  assert (He' : exposure_values N (one_texp e) (fun m => Fin (dflt 0 e))).
  { destruct e as [w|]; cbn; [|reflexivity]. split; [intros s Hs i i' _; reflexivity|]. left. split; reflexivity. }
  assert (H1 : single (one_texp e)) by (intros a Ha; destruct e; cbn in Ha; [injection Ha as <-; reflexivity|discriminate]).
  destruct (maskedM rd F (zero_u u rd Acc) (computed_law rd u1 u2) (computed_simple rd x) false n PF (fun j => Fin (rst j)) (to_Q _ _ _ _ HA) HS r sr Sr Pr N t (one_texp e) (fun m => Fin (dflt 0 e)) osam order nodes weights Ht Ft
    (fun m _ => ex_intro _ (dflt 0 e) eq_refl) He' St H1 (filter kept (seq 0 N)) mask_list) as (X & EX & SX & VX).
  { intros m Hm. apply filter_In in Hm. destruct Hm as [Hm _]. apply in_seq in Hm. lia. }
  assert (K : forall m j, (m < N)%nat -> (j < n)%nat -> exists w, aget X (at_tp m j) = Fin w /\ Rabs (w - f m j) <= d m j + 32 * (rs j / rst j * (mask_error u (xs j) (rs j) (ts m) (dflt 0 e) / rst j))).
  { intros m j Hm Hj. destruct (VX m j Hm Hj) as [V1 V2]. destruct (HW m j Hm Hj) as (w & Ew & Dw). destruct (G j Hj) as (ok & _). assert (HR := so_r_star _ ok).
    assert (M0 : 0 <= 32 * (rs j / rst j * (mask_error u (xs j) (rs j) (ts m) (dflt 0 e) / rst j))).
    { apply Rmult_le_pos; [lra|]. apply Rmult_le_pos; apply Rdiv_le_0_compat; try exact HR; [apply (Rr j Hj)|apply (mask_small u rd Acc u1 u2 law (xs j) (G j Hj) (rs j) (Rr j Hj) (Hreach j Hj) (ts m) e He)]. }
    destruct (in_dec Nat.eq_dec m (filter kept (seq 0 N))) as [I|I].
    - exists w. rewrite (V1 I), Vt by exact Hm. split; [exact Ew|lra].
    - exists 0. split; [apply V2; exact I|]. rewrite Rminus_0_l, Rabs_Ropp. assert (Q := HM m j Hm Hj (not_kept m j Hj Hm I)). assert (P0 := Rabs_pos (w - f m j)). lra. }
  exists X, (fun m j => value (aget X (at_tp m j))). split; [exact EX|]. split.
  - split; [exact SX|]. intros m j Hm Hj. destruct (K m j Hm Hj) as (w & -> & _). reflexivity.
  - intros m j Hm Hj. destruct (K m j Hm Hj) as (w & -> & Dw). exact Dw.
Qed.
End Simple.
