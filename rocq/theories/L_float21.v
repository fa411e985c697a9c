(** * Rounding errors of light curves: SimpleTransitOrbit *)
From Coq Require Import Reals List Bool Arith ZArith Lra Lia Psatz.
From Coquelicot Require Import Coquelicot.
From Verif Require Import Num CoreOps Inst CoreFlux M_units M_kepler M_fin M_tensor M_simple M_limbdark Spec_orbit Spec_params Spec_array Spec_simple Spec_light Spec_undef Spec_dist Spec_lip Spec_accuracy Spec_float Spec_float2 Spec_float3 Spec_float5
  L_real L_params3 L_fl L_tens L_shape L_shapeS L_transit3 L_array L_simple L_simple2 L_light1 L_light2 L_light3 L_light4 L_light7 L_lip2 L_lip3 L_dist3 L_float L_float8 L_float9 L_float16 L_float17 L_float18 L_float19 L_float20.
Import ListNotations.
Local Notation length := List.length.
Open Scope R_scope.

Lemma node_point u rd (Acc : accurate u rd) u1 u2 (law : 0 <= u1 /\ u1 + u2 <= 1 /\ 0 <= u1 + 2 * u2) x (ok : simple_ok x) (Hror : 0 <= dflt 0 (sa_ror x)) (Hb : Rabs (dflt 0 (sa_b x)) < 1 + dflt 0 (sa_ror x))
  (Hg : u * grazing (1 + dflt 0 (sa_ror x)) (dflt 0 (sa_b x)) <= 1 / 200) r (Rr : 0 <= r <= dflt 0 (sa_ror x) * dflt 1 (sa_r_star x)) nodes (Nx : List.Forall (fun v => -1 / 2 <= v <= 1 / 2) nodes) t e y s :
  In y nodes -> Rabs (s - (t + e * y)) <= u * (Rabs t + 2 * Rabs e) ->
  Rabs (flux_at u1 u2 (computed_position rd x s) r (dflt 1 (sa_r_star x)) - flux_at u1 u2 (spos x (t + e * y)) r (dflt 1 (sa_r_star x)))
    <= 32 * (r / dflt 1 (sa_r_star x) * (place_error u x t (u * (Rabs t + 3 * Rabs e)) / dflt 1 (sa_r_star x))).
Proof.
  intros Hy Hs. assert (By := proj1 (List.Forall_forall _ _) Nx _ Hy). cbv beta in By.
  eapply Rle_trans; [apply (simple_point u rd Acc u1 u2 law x ok Hror Hb Hg r Rr s _ _ Hs)|].
  assert (HR := so_r_star _ ok). assert (R0 : 0 <= r / dflt 1 (sa_r_star x)) by (apply Rdiv_le_0_compat; [apply Rr|exact HR]).
  apply Rmult_le_compat_l; [lra|]. apply Rmult_le_compat_l; [exact R0|]. apply Rmult_le_compat_r; [left; apply Rinv_0_lt_compat; exact HR|].
  unfold place_error. apply Rplus_le_compat_r. assert (V0 := sspeed_pos _ ok). rewrite <- (sspeed_chord _ ok). apply Rmult_le_compat_l; [lra|].
  assert (TM := time_error_moves u rd Acc x (t + e * y) t). replace (t + e * y - t) with (e * y) in TM by ring. rewrite Rabs_mult in TM.
  assert (U := proj1 Acc). assert (Ay : Rabs y <= 1 / 2) by (apply Rabs_le; lra). assert (E0 := Rabs_pos e). assert (M := Rmult_le_compat_l _ _ _ E0 Ay).
  assert (M2 : u * (Rabs e * Rabs y) <= u * (Rabs e * (1 / 2))) by (apply Rmult_le_compat_l; lra). assert (0 <= u * Rabs e) by (apply Rmult_le_pos; lra). lra.
Qed.

Section Simple.
Variable u : R.
Variable rd : rounder.
Hypothesis Acc : accurate u rd.
Hypothesis One : rd OLit 1 0 1 = 1.
Local Instance NF : Num fl bool | 0 := rounded_fl rd.
Local Instance NT : Num tens btens | 0 := rounded_tens rd.
Variables (n : nat) (x : sargs tens) (xs : nat -> sargs R).
Hypothesis sys : simple_system n x xs.
Hypothesis ok : forall j, (j < n)%nat -> simple_ok (xs j).
Hypothesis Hror : forall j, (j < n)%nat -> 0 <= dflt 0 (sa_ror (xs j)).
Hypothesis Hb : forall j, (j < n)%nat -> Rabs (dflt 0 (sa_b (xs j))) < 1 + dflt 0 (sa_ror (xs j)).
Hypothesis Hg : forall j, (j < n)%nat -> u * grazing (1 + dflt 0 (sa_ror (xs j))) (dflt 0 (sa_b (xs j))) <= 1 / 200.

Ltac snl := repeat first [assumption | apply Sn_lit | apply Sn_map | apply Sn_map2 | apply dflt_sn ].
Let o := simple_init x.
Lemma simple_snM : Sn n (s_speed o) /\ Sn n (s_b_norm o) /\ Sn n (s_duration o) /\ Sn n (s_r_star o).
Proof.
  destruct sys. unfold o, simple_init. cbn [s_period s_t0 s_b s_duration s_r_star s_b_norm s_speed s_half_period s_ref_time].
  assert (Sd : Sn n (sa_duration x)) by (apply pp_sn; exact ss_duration).
  split; [|split; [|split]]; cbn [npw]; snl.
Qed.
Lemma simple_dtM s t : ash t = Ok s -> ENS n s (simple_dt o t).
Proof.
  intro Et. destruct sys. unfold o, simple_dt, simple_init. cbn [s_period s_t0 s_b s_duration s_r_star s_b_norm s_speed s_half_period s_ref_time].
  assert (Sp : Sn n (sa_period x)) by (apply pp_sn; apply ss_period).
  assert (Ep : En n (sa_period x)).
  { split; [exact Sp|]. destruct ss_period as [_ [E|[E _]]]; auto. }
  apply ENS_map2l; [|snl]. apply T1S_En; [|exact Ep]. apply T1S_map2l; [apply padr_T1S; exact Et|]. snl.
Qed.
Lemma simple_answersM : answers (computed_simple rd x) false n (fun j t => computed_position rd (xs j) t) /\
  planet_numbers n (oa_r_star (computed_simple rd x)) (fun j => dflt 1 (sa_r_star (xs j))).
Proof.
  destruct simple_snM as (S1 & S2 & S3 & S4). split.
  - intros s t ts Et Wt Vt. unfold computed_simple. cbn [oa_pos simple_api]. unfold simple_relative_position. assert (E := simple_dtM s t Et). fold NT. fold o.
    set (dt := simple_dt o t) in *.
    eexists _, _, _, (squeezed (n :: s)). split; [reflexivity|]. apply (answers_of n s t ts); try assumption.
    + apply ENS_map2r; assumption.
    + apply ENS_map2r; [assumption|apply ENS_map; assumption].
    + assert (M : ENS n s (nlt (nabs dt) (nlit 0.5 * s_duration o)%num)) by (apply ENS_map2l; [apply ENS_map; assumption|apply Sn_map2; [apply Sn_lit|assumption]]).
      unfold ENS in M. change (bcr (ash (nlt (nabs dt) (nlit 0.5 * s_duration o)%num)) (bcr (Ok []) (Ok [])) = Ok (n :: s)).
      refine (eq_trans (f_equal (fun z => bcr z (bcr (Ok []) (Ok []))) M) _). change (match bc (n :: s) [] with Some c => Ok c | None => Err ShapeErr end = Ok (n :: s)). rewrite bc_nil. reflexivity.
    + intros i tt Hi Htt. assert (P := proj1 (computed_finite u rd Acc (xs (i O)) (ok _ Hi) (Hror _ Hi) (Hb _ Hi) (Hg _ Hi)) tt). assert (A := sargs_at_any n x xs sys i Hi). rewrite <- A, <- Htt in P.
      unfold simple_relative_position in P. apply Ok_inj in P. rewrite <- P. clear P. unfold dt, o. destruct x as [? ? [?|] [?|] [?|] [?|]]; reflexivity.
  - unfold computed_simple. cbn [oa_r_star simple_api]. split; [destruct S4 as [[E _]|[E _]]; [left|right]; exact E|].
    intros i Hi. assert (A := sargs_at_any n x xs sys i Hi). apply (f_equal sa_r_star) in A. unfold simple_init. cbn [s_r_star]. cbn in A.
    destruct (sa_r_star x), (sa_r_star (xs (i O))); try discriminate; [injection A as A; exact A|]. cbn [dflt]. change (Fin (rd OLit 1 0 1) = Fin 1). rewrite One. reflexivity.
Qed.

(** light curves *)
Variable eps : R.
Variable F : FluxOp.
Hypothesis HF : solves eps F.
Variables u1 u2 : R.
Hypothesis Hlaw : physical_law (intensity u1 u2).
Variables (r : tens) (rs : nat -> R).
Hypothesis Hr : elements n r rs.
Hypothesis Rr : forall j, (j < n)%nat -> 0 <= rs j <= dflt 0 (sa_ror (xs j)) * dflt 1 (sa_r_star (xs j)).
Variables (N : nat) (t : tens) (ts : nat -> R).
Hypothesis Ht : is_vector N t.
Hypothesis Vt : forall m, (m < N)%nat -> aget t (at_time m) = Fin (ts m).
Local Notation rst j := (dflt 1 (sa_r_star (xs j))).
Let law := proj1 (law_iff u1 u2) Hlaw.

Lemma table_weaken n' N' X f g d d' : table_near n' N' X f d -> (forall m j, (m < N')%nat -> (j < n')%nat -> Rabs (f m j - g m j) + d m j <= d' m j) -> table_near n' N' X g d'.
Proof.
  intros (A & v & EX & T & H) K. exists A, v. split; [exact EX|]. split; [exact T|]. intros m j Hm Hj. specialize (H m j Hm Hj). specialize (K m j Hm Hj).
  replace (v m j - g m j) with ((v m j - f m j) + (f m j - g m j)) by ring. eapply Rle_trans; [apply Rabs_triang|]. lra.
Qed.

Lemma simple_curve os order : table_near n N (computed_curve rd F u1 u2 (Some (computed_simple rd x)) (Some r) (Some t) None os order (Some false) false)
  (fun m j => flux_at u1 u2 (spos (xs j) (ts m)) (rs j) (rst j)) (fun m j => flux_error u eps + distance_error u (rs j / rst j) (place_error u (xs j) (ts m) 0 / rst j)).
Proof.
  destruct simple_answersM as [HA HS].
  eapply table_weaken; [apply (curve_none u eps rd Acc F HF u1 u2 Hlaw (computed_simple rd x) false n _ _ r rs HA HS Hr (fun j Hj => so_r_star _ (ok j Hj)) (fun j Hj => proj1 (Rr j Hj)) N t ts Ht Vt)|].
  intros m j Hm Hj. assert (S := simple_point u rd Acc u1 u2 law (xs j) (ok j Hj) (Hror j Hj) (Hb j Hj) (Hg j Hj) (rs j) (Rr j Hj) (ts m) (ts m) 0).
  rewrite Rminus_eq_0, Rabs_R0 in S. specialize (S (Rle_refl 0)). unfold distance_error. cbv beta. set (p := place_error _ _ _ _ / _) in *. clearbody p. lra.
Qed.

Lemma simple_curve_exposures e es osam order nodes weights : exposures N e es -> stencil osam order = Ok (nodes, weights) ->
  table_near n N (computed_curve rd F u1 u2 (Some (computed_simple rd x)) (Some r) (Some t) (Some e) osam order (Some false) false)
  (fun m j => node_mean nodes weights (fun s => flux_at u1 u2 (spos (xs j) s) (rs j) (rst j)) (ts m) (es m))
  (fun m j => (1 + u) ^ (length nodes + 2) * (1 + (flux_error u eps + distance_error u (rs j / rst j) 0)) - 1 + 32 * (rs j / rst j * (place_error u (xs j) (ts m) (u * (Rabs (ts m) + 3 * Rabs (es m))) / rst j))).
Proof.
  intros He St. destruct simple_answersM as [HA HS].
  apply (curve_exposures u eps rd Acc F HF u1 u2 Hlaw (computed_simple rd x) false n _ _ r rs HA HS Hr (fun j Hj => so_r_star _ (ok j Hj)) (fun j Hj => proj1 (Rr j Hj)) N t ts Ht Vt e es osam order nodes weights
    (fun j s => flux_at u1 u2 (spos (xs j) s) (rs j) (rst j)) (fun m j => 32 * (rs j / rst j * (place_error u (xs j) (ts m) (u * (Rabs (ts m) + 3 * Rabs (es m))) / rst j))) He St).
  intros m j y s Hm Hj Hy Hs. destruct (quadrature _ _ _ _ St) as (_ & _ & _ & _ & _ & Nx & _).
  exact (node_point u rd Acc u1 u2 law (xs j) (ok j Hj) (Hror j Hj) (Hb j Hj) (Hg j Hj) (rs j) (Rr j Hj) nodes Nx (ts m) (es m) y s Hy Hs).
Qed.
End Simple.
