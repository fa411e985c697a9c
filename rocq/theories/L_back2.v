(** * Light curves that run backwards *)
From Coq Require Import Reals List Bool Arith ZArith Lra Lia Psatz.
From Verif Require Import Num CoreOps Inst CoreFlux M_units M_kepler M_fin M_tensor M_simple M_ttv M_limbdark M_secondary
  Spec_orbit Spec_params Spec_array Spec_light Spec_secondary Spec_delay Spec_sym Spec_back
  L_real L_kepop L_orbit L_params3 L_fl L_fl2 L_fl3 L_tens L_shape L_shapeS L_transit3 L_transit4 L_array L_motion L_pmotion L_pmotion3
  L_reshape L_light1 L_light2 L_light3 L_light4 L_light7 L_light8 L_second L_second2 L_delay L_delay2 L_sym L_sym2 L_node L_mirror L_back.
Import ListNotations.
Local Notation length := List.length.
Open Scope R_scope.

Lemma phys_sinw o d : physical o -> o_ecc o = Some d -> -1 <= e_sinw d /\ e_cosw d * e_cosw d + e_sinw d * e_sinw d <> 0.
Proof. intros P E. assert (H := ph_omega _ P d E). split; nra. Qed.
Lemma back_phys T ed o : physical o -> ecc_back (o_ecc o) ed -> physical (set_back T ed o).
Proof.
  intros [] B. constructor; try assumption; cbn [set_back o_ecc]; intros d' ->; unfold ecc_back in B; destruct (o_ecc o) as [d|]; try contradiction; destruct B as (E1 & E2 & E3 & _); rewrite ?E1, ?E2, ?E3.
  - apply ph_ecc. reflexivity.
  - specialize (ph_omega d eq_refl). rewrite <- ph_omega. ring.
Qed.
Lemma back_runs k x o T : consts_ok k -> kep_init k x = Ok o -> physical o -> exists ed, kep_init k (backwards x (2 * T - o_t0 o)) = Ok (set_back (2 * T - o_t0 o) ed o) /\ ecc_back (o_ecc o) ed /\
  physical (set_back (2 * T - o_t0 o) ed o) /\ runs_back T o (set_back (2 * T - o_t0 o) ed o) /\ (o_ecc o <> None -> o_tper (set_back (2 * T - o_t0 o) ed o) = 2 * T - o_tper o).
Proof.
  intros kok Hi Hp. destruct (back_init k x o (2 * T - o_t0 o) Hi) as (ed & Hi' & B).
  { intros d E. apply (phys_sinw o d Hp E). }
  exists ed. split; [exact Hi'|]. split; [exact B|]. assert (Hp' := back_phys (2 * T - o_t0 o) ed o Hp B). split; [exact Hp'|].
  assert (F := kep_init_facts k kok x o Hi Hp). assert (Tp : o_ecc o <> None -> o_tper (set_back (2 * T - o_t0 o) ed o) = 2 * T - o_tper o).
  { intro Ne. cbn [set_back o_tper]. unfold M0_back. destruct (o_ecc o); [|contradiction]. rewrite (of_t0 _ _ _ F). cbn. unfold Rdiv. ring. }
  split; [|exact Tp]. apply (make_back k T x o _ _ kok Hi Hp Hi' Hp'); try reflexivity.
  cbn [set_back o_ecc]. unfold ecc_back in B. destruct (o_ecc o) as [d|] eqn:ED, ed as [d'|]; try contradiction.
  - destruct B as (E1 & E2 & E3 & _). split; [exact E1|]. split; [exact E2|]. split; [exact E3|]. apply Tp. discriminate.
  - exists 0%Z. cbn [set_back o_t0 o_period]. ring.
Qed.
Lemma backwards_motion : forall k (x : kargs R) o T, consts_ok k -> kep_init k x = Ok o -> physical o ->
  exists o', kep_init k (backwards x (2 * T - o_t0 o)) = Ok o' /\ physical o' /\ o_t0 o' = 2 * T - o_t0 o /\ (o_ecc o <> None -> o_tper o' = 2 * T - o_tper o) /\
  forall t, (forall b par, pos k o' b (2 * T - t) par false = across (node_angle x + PI / 2) (pos k o b t par false)) /\
    (forall b, vel o' b (2 * T - t) = opposite (across (node_angle x + PI / 2) (vel o b t))) /\
    (forall b, acc o' b (2 * T - t) = across (node_angle x + PI / 2) (acc o b t)) /\
    (forall K u, get_radial_velocity k o' (kep_warp o') (2 * T - t) K u = rmap Ropp (get_radial_velocity k o (kep_warp o) t K u)).
Proof.
  intros k x o T kok Hi Hp. destruct (back_runs k x o T kok Hi Hp) as (ed & Hi' & B & Hp' & RB & Tp). eexists. split; [exact Hi'|]. split; [exact Hp'|]. split; [reflexivity|]. split; [exact Tp|].
  intro t. assert (Ow := node_known k x o Hi). unfold node_angle. split; [|split; [|split]]; intros.
  - apply (back_pos k T o _ (ka_Omega x) RB Ow).
  - apply (back_vel T o _ (ka_Omega x) RB Ow).
  - apply (back_acc T o _ (ka_Omega x) RB Ow).
  - apply (back_rv k T o _ (ka_Omega x) RB Ow).
Qed.
(** a circular orbit is its own reverse *)
Lemma circular_runs k x o T (z : Z) : consts_ok k -> kep_init k x = Ok o -> physical o -> o_ecc o = None -> 2 * T = 2 * o_t0 o + IZR z * o_period o -> runs_back T o o.
Proof.
  intros kok Hi Hp E H. apply (make_back k T x o x o kok Hi Hp Hi Hp); try reflexivity. rewrite E. exists (- z)%Z. rewrite opp_IZR, H. ring.
Qed.
Lemma circular_motion : forall k (x : kargs R) o (z : Z), consts_ok k -> kep_init k x = Ok o -> physical o -> o_ecc o = None -> forall u,
  let T := o_t0 o + IZR z * (o_period o / 2) in
  (forall b par, pos k o b (T - u) par false = across (node_angle x + PI / 2) (pos k o b (T + u) par false)) /\
  (forall b, vel o b (T - u) = opposite (across (node_angle x + PI / 2) (vel o b (T + u)))) /\
  (forall b, acc o b (T - u) = across (node_angle x + PI / 2) (acc o b (T + u))) /\
  (forall K v, get_radial_velocity k o (kep_warp o) (T - u) K v = rmap Ropp (get_radial_velocity k o (kep_warp o) (T + u) K v)).
Proof.
  intros k x o z kok Hi Hp E u T. assert (RB : runs_back T o o) by (apply (circular_runs k x o T z kok Hi Hp E); unfold T; field).
  assert (Ow := node_known k x o Hi). unfold node_angle. replace (T - u) with (2 * T - (T + u)) by ring. split; [|split; [|split]]; intros.
  - apply (back_pos k T o _ (ka_Omega x) RB Ow).
  - apply (back_vel T o _ (ka_Omega x) RB Ow).
  - apply (back_acc T o _ (ka_Omega x) RB Ow).
  - apply (back_rv k T o _ (ka_Omega x) RB Ow).
Qed.

(** ** exposures *)
Lemma combine_app' {A B} (a1 a2 : list A) (b1 b2 : list B) : length a1 = length b1 -> combine (a1 ++ a2) (b1 ++ b2) = combine a1 b1 ++ combine a2 b2.
Proof. revert b1. induction a1 as [|a a1 IH]; intros [|b b1] H; cbn in H; try discriminate; [reflexivity|]. cbn. rewrite IH by lia. reflexivity. Qed.
Lemma combine_rev {A B} (a : list A) (b : list B) : length a = length b -> combine (rev a) (rev b) = rev (combine a b).
Proof.
  revert b. induction a as [|x a IH]; intros [|y b] H; cbn in H; try discriminate; [reflexivity|]. cbn. rewrite combine_app' by (rewrite !rev_length; lia). rewrite IH by lia. reflexivity.
Qed.
Lemma sum_snoc l (a : R) : fold_right Rplus 0 (l ++ [a]) = a + fold_right Rplus 0 l.
Proof. induction l as [|b l IH]; cbn; [ring|]. rewrite IH. ring. Qed.
Lemma sum_rev l : fold_right Rplus 0 (rev l) = fold_right Rplus 0 l.
Proof. induction l as [|a l IH]; [reflexivity|]. cbn [rev]. rewrite sum_snoc, IH. reflexivity. Qed.
Lemma node_mean_back osam order x w f f' T t e : stencil osam order = Ok (x, w) -> order = 0%Z \/ (2 <= osam)%Z -> (forall u, f' (2 * T - u) = f u) ->
  node_mean x w f' (2 * T - t) e = node_mean x w f t e.
Proof.
  intros St G H. destruct (quadrature osam order x w St) as (L & _ & _ & _ & _ & _ & Rw & Rx). specialize (Rx G).
  assert (E : node_mean x w f' (2 * T - t) e = node_mean (map Ropp x) w f t e).
  { unfold node_mean. clear - H. f_equal. revert w. induction x as [|a x IH]; intros [|b w]; cbn; try reflexivity. rewrite IH. f_equal. f_equal. rewrite <- H. f_equal. ring. }
  rewrite E, <- Rx. unfold node_mean. rewrite <- Rw at 1. rewrite combine_rev by exact L. rewrite map_rev, sum_rev. reflexivity.
Qed.

(** ** which times are in transit *)
Lemma mod_neg a P : 0 < P -> Rmodulo (- a + 1 / 2 * P) P - 1 / 2 * P = - (Rmodulo (a + 1 / 2 * P) P - 1 / 2 * P) \/
  Rmodulo (- a + 1 / 2 * P) P - 1 / 2 * P = - (1 / 2 * P) /\ Rmodulo (a + 1 / 2 * P) P - 1 / 2 * P = - (1 / 2 * P).
Proof.
  intro HP. assert (B := Rmodulo_bounds (a + 1 / 2 * P) P HP). destruct (Rmodulo_eq (a + 1 / 2 * P) P) as [z E].
  destruct (Req_dec (Rmodulo (a + 1 / 2 * P) P) 0) as [Z|Z].
  - right. rewrite Z. split; [|ring]. rewrite Z in E. assert (E' : - a + 1 / 2 * P = 0 + IZR (1 - z) * P) by (rewrite minus_IZR; lra).
    rewrite E', Rmodulo_add_mult by lra. assert (Rmodulo 0 P = 0); [|lra]. replace 0 with (0 - IZR 0 * P) by ring. rewrite (Rmodulo_unique (0 - IZR 0 * P) P 0); [ring|lra|lra].
  - left. rewrite (Rmodulo_unique (- a + 1 / 2 * P) P (- z)); [rewrite opp_IZR; lra|lra|rewrite opp_IZR; lra].
Qed.
Lemma fle_window (h : fl) (a b : R) : (b = - a \/ b = a) -> fle (fneg h) (Fin a) && fle (Fin a) h = fle (fneg h) (Fin b) && fle (Fin b) h.
Proof.
  intros [->| ->]; [|reflexivity]. destruct h as [r|s|]; cbn [fle fneg]; [|destruct s; reflexivity|reflexivity].
  destruct (Rleb (- r) a) eqn:E1, (Rleb a r) eqn:E2, (Rleb (- r) (- a)) eqn:E3, (Rleb (- a) r) eqn:E4; try reflexivity;
    repeat match goal with H : Rleb _ _ = true |- _ => apply L_real.Rleb_true in H | H : Rleb _ _ = false |- _ => apply L_real.Rleb_false in H end; exfalso; lra.
Qed.
Lemma fneg_add a b : fneg (fadd a b) = fadd (fneg a) (fneg b).
Proof. destruct a as [x|s|], b as [y|s'|]; cbn; try reflexivity; [f_equal; ring|]. destruct s, s'; reflexivity. Qed.

Lemma mask_back cp (o o' : orbit R) T (z : Z) t r e : physical o -> o_ecc o = None -> o_ecc o' = None -> o_period o' = o_period o ->
  o_a o' = o_a o -> o_b o' = o_b o -> o_sin_incl o' = o_sin_incl o -> o_r_star o' = o_r_star o -> o_t0 o' = 2 * T - o_t0 o + IZR z * o_period o ->
  transit_mask (fin_orbit o) (kep_warp (fin_orbit o)) cp (Fin t) (Fin r) e = transit_mask (fin_orbit o') (kep_warp (fin_orbit o')) cp (Fin (2 * T - t)) (Fin r) e.
Proof.
  intros Hp E E' EP Ea Eb Ei Er Et. assert (P := ph_period _ Hp).
  assert (Wd : transit_window (fin_orbit o') cp (Fin r) = transit_window (fin_orbit o) cp (Fin r)).
  { unfold transit_window. cbn [fin_orbit map_orbit o_a o_r_star o_period o_ecc o_b o_sin_incl]. rewrite E, E', EP, Ea, Eb, Ei, Er. reflexivity. }
  assert (Sh : exists h f, transit_window (fin_orbit o) cp (Fin r) = (fneg h, h, f)).
  { unfold transit_window. cbn [fin_orbit map_orbit o_ecc]. rewrite E. cbn [option_map]. eexists _, _. reflexivity. }
  destruct Sh as (h & f & Sh). unfold transit_mask. rewrite Wd, Sh.
  assert (Sn : forall (q : orbit R) u, o_period q = o_period o -> since_transit (fin_orbit q) (kep_warp (fin_orbit q)) (Fin u) = Fin (Rmodulo ((u - o_t0 q) + 1 / 2 * o_period o) (o_period o) - 1 / 2 * o_period o)).
  { intros q u Eq. unfold since_transit. rewrite kep_warp_fin. cbn [fin_orbit map_orbit o_period]. rewrite Eq. cbn. replace (Reqb (o_period o) 0) with false by (symmetry; apply Reqb_false; lra).
    cbn. f_equal. replace 0.5 with (1 / 2) by lra. reflexivity. }
  rewrite (Sn o t eq_refl), (Sn o' (2 * T - t) EP), Et. clear Sn.
  replace (2 * T - t - (2 * T - o_t0 o + IZR z * o_period o) + 1 / 2 * o_period o) with (- (t - o_t0 o) + 1 / 2 * o_period o + IZR (- z) * o_period o) by (rewrite opp_IZR; ring).
  rewrite Rmodulo_add_mult by lra.
  assert (C : forall h', fle (fneg h') (Fin (Rmodulo (t - o_t0 o + 1 / 2 * o_period o) (o_period o) - 1 / 2 * o_period o)) && fle (Fin (Rmodulo (t - o_t0 o + 1 / 2 * o_period o) (o_period o) - 1 / 2 * o_period o)) h'
    = fle (fneg h') (Fin (Rmodulo (- (t - o_t0 o) + 1 / 2 * o_period o) (o_period o) - 1 / 2 * o_period o)) && fle (Fin (Rmodulo (- (t - o_t0 o) + 1 / 2 * o_period o) (o_period o) - 1 / 2 * o_period o)) h').
  { intro h'. apply fle_window. destruct (mod_neg (t - o_t0 o) (o_period o) P) as [H|[H1 H2]]; [left; exact H|right; rewrite H1, H2; reflexivity]. }
  f_equal. destruct e as [e|]; [|apply C].
  change (fle (fsub (fneg h) (fmul (Fin 0.5) e)) (Fin (Rmodulo (t - o_t0 o + 1 / 2 * o_period o) (o_period o) - 1 / 2 * o_period o)) && fle (Fin (Rmodulo (t - o_t0 o + 1 / 2 * o_period o) (o_period o) - 1 / 2 * o_period o)) (fadd h (fmul (Fin 0.5) e))
    = fle (fsub (fneg h) (fmul (Fin 0.5) e)) (Fin (Rmodulo (- (t - o_t0 o) + 1 / 2 * o_period o) (o_period o) - 1 / 2 * o_period o)) && fle (Fin (Rmodulo (- (t - o_t0 o) + 1 / 2 * o_period o) (o_period o) - 1 / 2 * o_period o)) (fadd h (fmul (Fin 0.5) e))).
  unfold fsub. rewrite <- fneg_add. apply C.
Qed.
