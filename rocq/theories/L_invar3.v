(** * Minimum masses and box least squares of the same observations *)
From Coq Require Import Reals Lra Lia List Bool Arith ZArith Permutation String.
From Verif Require Import Num CoreOps Inst CoreLin M_units M_kepler M_dist M_ttv M_rv M_peaks M_acorr M_bls Spec_orbit Spec_rv Spec_bls Spec_invar L_rv1 L_rv2 L_rv3 L_rv5 L_rv6 L_rv7 L_invar L_invar2.
Import ListNotations.
Open Scope R_scope.
Local Notation length := List.length.

Lemma day_pos k : consts_ok k -> 0 < uscale (u_day k). Proof. intro kok. exact (ok_d _ kok). Qed.
Lemma day_measures k P : consts_ok k -> measures (Q P (Some (u_day k))) (u_day k) P.
Proof. intro kok. unfold measures. cbn [qu qv]. repeat split. apply (day_pos k kok). Qed.
Lemma lmap2_times g : forall a b : list R, lmap2 Rmult (map (Rmult g) a) b = rmap (map (Rmult g)) (lmap2 Rmult a b).
Proof.
  intros a b. unfold lmap2. rewrite map_length. destruct (Nat.eqb (length a) (length b)).
  - cbn [rmap]. f_equal. revert b. induction a as [|x a IH]; intros [|y b]; cbn; try reflexivity. rewrite IH. f_equal. ring.
  - destruct a as [|x [|x' a]].
    + destruct b as [|y [|y' b]]; reflexivity.
    + cbn. f_equal. rewrite map_map. apply map_ext. intro. ring.
    + destruct b as [|y [|y' b]]; cbn; try reflexivity. f_equal. f_equal; [ring|]. f_equal; [ring|]. rewrite !map_map. apply map_ext. intro. ring.
Qed.
Lemma mass_scale g k mJ periods periods' x y yerr x' y' yerr' t0s t0s' ms P : consts_ok k -> measures periods (u_day k) P -> measures periods' (u_day k) P ->
  estimate_semi_amplitude k (Q P (Some (u_day k))) x' y' yerr' t0s' = rmap (map (Rmult g)) (estimate_semi_amplitude k (Q P (Some (u_day k))) x y yerr t0s) ->
  estimate_minimum_mass k mJ periods' x' y' yerr' t0s' ms = rmap (times_q g) (estimate_minimum_mass k mJ periods x y yerr t0s ms).
Proof.
  intros kok M M' E. unfold estimate_minimum_mass. rewrite (measures_value _ _ _ (day_pos k kok) M), (measures_value _ _ _ (day_pos k kok) M'). cbn [rbind]. rewrite E.
  destruct (match qu ms with None => _ | Some v => _ end) as [m|e]; [|reflexivity]. cbn [rbind].
  destruct (estimate_semi_amplitude k (Q P (Some (u_day k))) x y yerr t0s) as [K|e]; [|reflexivity]. cbn [rbind rmap].
  assert (R : map (fun K => K / 28.4329 * Rpower m (2 / 3)) (map (Rmult g) K) = map (Rmult g) (map (fun K => K / 28.4329 * Rpower m (2 / 3)) K)).
  { rewrite !map_map. apply map_ext. intro z. unfold Rdiv. ring. }
  rewrite R, lmap2_times. destruct (lmap2 _ _ _); reflexivity.
Qed.
Lemma transit_mass_invariant : forall k mJ periods periods' t0s t0s' x y yerr x' y' yerr' ms P T0 ts vs sigma ts' vs' sigma' d g c a, consts_ok k ->
  measures periods (u_day k) P -> measures periods' (u_day k) P -> measures t0s (u_day k) T0 -> measures t0s' (u_day k) (map (fun z => z + d) T0) ->
  rv_data k x y yerr ts vs sigma -> rv_data k x' y' yerr' ts' vs' sigma' ->
  List.Forall (fun p => p <> 0) P -> a <> 0 -> rewritten d g c a ts vs sigma ts' vs' sigma' ->
  estimate_minimum_mass k mJ periods' x' y' yerr' (Some t0s') ms = rmap (times_q g) (estimate_minimum_mass k mJ periods x y yerr (Some t0s) ms).
Proof.
  intros k mJ periods periods' t0s t0s' x y yerr x' y' yerr' ms P T0 ts vs sg ts' vs' sg' d g c a kok MP MP' MT MT' D D' NZ Ha W. apply (mass_scale g k mJ _ _ _ _ _ _ _ _ _ _ _ P kok MP MP').
  exact (transit_invariant k _ _ t0s t0s' x y yerr x' y' yerr' P T0 ts vs sg ts' vs' sg' d g c a kok (day_measures k P kok) (day_measures k P kok) MT MT' D D' NZ Ha W).
Qed.
Lemma phase_mass_invariant : forall k mJ periods periods' x y yerr x' y' yerr' ms P ts vs sigma ts' vs' sigma' d g c a, consts_ok k ->
  measures periods (u_day k) P -> measures periods' (u_day k) P ->
  rv_data k x y yerr ts vs sigma -> rv_data k x' y' yerr' ts' vs' sigma' ->
  List.Forall (fun p => p <> 0) P -> a <> 0 -> rewritten d g c a ts vs sigma ts' vs' sigma' ->
  estimate_minimum_mass k mJ periods' x' y' yerr' None ms = rmap (times_q (Rabs g)) (estimate_minimum_mass k mJ periods x y yerr None ms).
Proof.
  intros k mJ periods periods' x y yerr x' y' yerr' ms P ts vs sg ts' vs' sg' d g c a kok MP MP' D D' NZ Ha W. apply (mass_scale (Rabs g) k mJ _ _ _ _ _ _ _ _ _ _ _ P kok MP MP').
  exact (phase_invariant k _ _ x y yerr x' y' yerr' P ts vs sg ts' vs' sg' d g c a kok (day_measures k P kok) (day_measures k P kok) D D' NZ Ha W).
Qed.
(** ** box least squares *)
Lemma fadd_later t r d : fadd t (Fin (r + d)) = moved d (fadd t (Fin r)).
Proof. destruct t; cbn; try reflexivity. f_equal. ring. Qed.
Lemma info_later d : forall l i, ~ In "transit_time"%string (map fst l) ->
  forall r, rlist (map (fun kv : string * list fl => v <- at_index i (snd kv) ;; Ok (fst kv, v)) l) = Ok r ->
  map (fun kv : string * fl => if String.eqb (fst kv) "transit_time" then (fst kv, moved d (snd kv)) else kv) r = r.
Proof.
  induction l as [|[n v] l IH]; intros i N r H; cbn [map rlist fst snd] in *; [injection H as <-; reflexivity|].
  destruct (at_index i v) as [z|]; [|discriminate]. cbn [rbind] in H. destruct (rlist _) as [r'|] eqn:E; [|discriminate]. cbn [rbind] in H. injection H as <-. cbn [map fst snd].
  rewrite (IH i (fun I => N (or_intror I)) r' E). destruct (String.eqb n "transit_time") eqn:Q; [apply String.eqb_eq in Q; subst; exfalso; apply N; left; reflexivity|]. reflexivity.
Qed.
Lemma bls_shifted : forall fuel argsort A x y yerr dur minp maxp obj meth ov kw d, one_transit_time A ->
  bls_estimator fuel argsort A (map (fun t => t + d) x) y yerr dur minp maxp obj meth ov kw =
  rmap (later d) (bls_estimator fuel argsort A x y yerr dur minp maxp obj meth ov kw).
Proof.
  intros fuel argsort A x y yerr dur minp maxp obj meth ov kw d One. unfold bls_estimator.
  assert (E1 : forall l : list R, map (fun t => t + d) l = map (fun t => 1 * t + d) l) by (intro l; apply map_ext; intro; ring).
  rewrite E1, (amin_aff 1 d Rlt_0_1), (amax_aff 1 d Rlt_0_1). destruct (amin x) as [a|e]; [|reflexivity]. destruct (amax x) as [b|e]; [|reflexivity]. cbn [rmap rbind]. cbv zeta.
  rewrite map_length. assert (ET : map (fun v => v - 0.5 * (1 * a + d + (1 * b + d))) (map (fun t => 1 * t + d) x) = map (fun v => v - 0.5 * (a + b)) x).
  { rewrite map_map. apply map_ext. intro v. lra. }
  rewrite ET. replace (0.5 * (1 * a + d + (1 * b + d))) with (0.5 * (a + b) + d) by lra. set (r := 0.5 * (a + b)). set (t := map (fun v => v - r) x).
  destruct (match dget _ _ with Some _ => _ | None => _ end) as [kw1|e]; [|reflexivity]. cbn [rbind]. destruct (dmerge _ kw1) as [kw2|e]; [|reflexivity]. cbn [rbind].
  destruct (autopower A t y yerr dur kw2) as [pg|e] eqn:EA; [|reflexivity]. cbn [rbind]. assert (O := One _ _ _ _ _ _ EA).
  assert (TT : map (fun z => fadd z (Fin (r + d))) (pg_transit_time pg) = map (moved d) (map (fun z => fadd z (Fin r)) (pg_transit_time pg))) by (rewrite map_map; apply map_ext; intro z; apply fadd_later).
  unfold shift_transits at 1 2 3 4 5 6. cbn [pg_period pg_power]. destruct (find_peaks argsort _ _ 1) as [[p|[|p ps]]|e]; try reflexivity; cbn [rbind].
  - cbn [rmap]. unfold later, shift_transits. cbn [bo_bls bo_peaks bo_info option_map pg_period pg_power pg_transit_time pg_objective pg_other]. rewrite TT. reflexivity.
  - unfold pg_arrays, shift_transits. cbn [pg_period pg_power pg_transit_time pg_other map rlist fst snd]. rewrite TT. set (tt := map (fun z => fadd z (Fin r)) (pg_transit_time pg)).
    destruct (at_index (pk_index p) (map Fin (pg_period pg))) as [v1|e]; [|reflexivity]. cbn [rbind]. destruct (at_index (pk_index p) (pg_power pg)) as [v2|e]; [|reflexivity]. cbn [rbind].
    unfold at_index at 1 3. rewrite nth_error_map. destruct (nth_error tt (pk_index p)) as [v3|]; [|reflexivity]. cbn [option_map rbind].
    destruct (rlist _) as [ri|e] eqn:ER; [|reflexivity]. cbn [rbind rmap]. f_equal. unfold later. cbn [bo_bls bo_peaks bo_info option_map map fst snd pg_period pg_power pg_transit_time pg_objective pg_other].
    rewrite (info_later d (pg_other pg) (pk_index p) O ri ER). reflexivity.
Qed.
