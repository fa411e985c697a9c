(** * Light curves: the statements of C38-C45 *)
From Coq Require Import Reals List Bool Arith ZArith Lra Lia Psatz Sorted String.
From Coquelicot Require Import Coquelicot.
From Verif Require Import Num CoreOps Inst CoreFlux M_units M_kepler M_fin M_tensor M_simple M_ttv M_limbdark Spec_orbit Spec_params Spec_array Spec_simple Spec_light
  L_real L_params3 L_fl L_fl2 L_fl3 L_fl4 L_tens L_shape L_shapeS L_transit3 L_transit4 L_array L_ptransit L_simple L_simple2 L_reshape L_flux L_light1 L_light2 L_light3 L_light4 L_light5 L_light6.
Import ListNotations.
Local Notation length := List.length.
Open Scope R_scope.

(** ** C38 *)
Lemma coefficients : forall u1 u2, disk_flux u1 u2 <> 0 ->
  disk_flux u1 u2 = PI * (1 - u1 / 3 - u2 / 6) /\
  exists c0 c1 c2, ld_c (ld_init (Fin u1) (Fin u2)) = (Fin c0, Fin c1, Fin c2) /\
    forall mu, c0 + c1 * mu + c2 * (4 * (mu * mu) - 2) = intensity u1 u2 mu / disk_flux u1 u2.
Proof.
  intros u1 u2 H. split; [apply disk_value|]. cbn [ld_init ld_c]. rewrite (cl_fin u1 u2 H). do 3 eexists. split; [reflexivity|]. intro mu. unfold intensity.
  set (d := disk_flux u1 u2) in *. replace (1.5 * u2) with (3 / 2 * u2) by lra. replace (-0.25 * u2) with (- (1 / 4) * u2) by lra. field. exact H.
Qed.
Lemma no_flux : forall u1 u2, disk_flux u1 u2 = 0 -> forall a b c, ld_c (ld_init (Fin u1) (Fin u2)) <> (Fin a, Fin b, Fin c).
Proof.
  intros u1 u2 H a b c. cbn [ld_init ld_c]. unfold get_cl. cbn -[PI]. rewrite (Reqb_ne 1.5 0) by lra. cbn -[PI]. unfold fsub. cbn -[PI].
  replace (PI * (1 + - u1 + - (1.5 * u2) + (u1 + 2 * u2) / 1.5)) with (disk_flux u1 u2) by (rewrite <- norm_value; unfold Rdiv; ring).
  rewrite H. intro E. apply (f_equal (fun v => fst (fst v))) in E. cbn [fst] in E. unfold Reqb in E. destruct (Req_EM_T 0 0) as [_|C]; [|contradiction].
  match type of E with (if if ?a then _ else _ then _ else _) = _ => destruct a end; discriminate E.
Qed.

(** ** C39 *)
Lemma flux_properties : forall u1 u2 b r los i bi ri li, disk_flux u1 u2 <> 0 ->
  aget b i = Fin bi -> aget r i = Fin ri -> aget los i = Fin li ->
  exists v, aget (compute_light_curve (ld_init (Fin u1) (Fin u2)) b r (Some los)) i = Fin v /\
    (1 + Rabs ri <= Rabs bi \/ li <= 0 -> v = 0) /\
    (0 < li -> 1 + Rabs bi <= Rabs ri -> v = -1) /\
    (bright u1 u2 -> -1 <= v <= 0) /\
    ((forall mu, 0 < mu <= 1 -> 0 < intensity u1 u2 mu) -> 0 < ri -> Rabs bi < 1 + ri -> 0 < li -> v < 0).
Proof.
  intros u1 u2 b r los i bi ri li Hd Hb Hr Hl. exists (rel_flux u1 u2 bi ri li). split; [apply flux_elt; assumption|]. split; [|split; [|split]].
  - apply rel_flux_out, Hd.
  - intros H1 H2. apply rel_flux_covered; assumption.
  - intro H. apply rel_flux_range; assumption.
  - intros H1 H2 H3 H4. apply rel_flux_in; assumption.
Qed.
Lemma los_default : forall l b r, compute_light_curve l b r None = compute_light_curve l b r (Some (amap (fun _ => Fin 1) b)).
Proof. reflexivity. Qed.
Lemma kipping_bright : forall u1 u2, u1 + u2 <= 1 -> 0 <= u1 -> 0 <= u1 + 2 * u2 -> bright u1 u2 /\ 0 < disk_flux u1 u2.
Proof.
  intros u1 u2 H1 H2 H3. split.
  - intros mu Hm. unfold intensity. set (x := 1 - mu). assert (Hx : 0 <= x <= 1) by (unfold x; lra). clearbody x.
    assert (A := Rmult_le_pos (1 - x) u1 ltac:(lra) H2). assert (B := Rmult_le_pos (1 + x) (u1 + 2 * u2) ltac:(lra) H3).
    assert (C := Rmult_le_pos (1 - x) ((1 - x) * u1 + (1 + x) * (u1 + 2 * u2)) ltac:(lra) ltac:(lra)). nra.
  - rewrite disk_value. apply Rmult_lt_0_compat; [apply PI_RGT_0|lra].
Qed.

(** ** C44 *)
Lemma lc_plain : forall u1 u2 A ld n P rst r rs N t ts os order,
  disk_flux u1 u2 <> 0 -> answers A ld n P -> planet_numbers n (oa_r_star A) rst -> (forall j, (j < n)%nat -> rst j <> 0) ->
  elements n r rs -> is_vector N t -> (forall m, (m < N)%nat -> aget t (at_time m) = Fin (ts m)) ->
  exists X, get_light_curve (ld_init (Fin u1) (Fin u2)) (Some A) (Some r) (Some t) None os order (Some false) ld = Ok X /\
    light_table n N X (fun m j => flux_at u1 u2 (P j (ts m)) (rs j) (rst j)).
Proof.
  intros u1 u2 A ld n P rst r rs N t ts os order Hd HA Hrs Hrs0 Hr Ht Hts.
  exact (plain_ok u1 u2 A ld n P rst Hd HA Hrs Hrs0 r rs Hr N t ts Ht Hts [] [] (fun _ => 0) None os order I).
Qed.
Lemma lc_exposed : forall u1 u2 A ld n P rst r rs N t ts e es os order nodes weights,
  disk_flux u1 u2 <> 0 -> answers A ld n P -> planet_numbers n (oa_r_star A) rst -> (forall j, (j < n)%nat -> rst j <> 0) ->
  elements n r rs -> is_vector N t -> (forall m, (m < N)%nat -> aget t (at_time m) = Fin (ts m)) ->
  exposures N e es -> stencil os order = Ok (nodes, weights) ->
  exists X, get_light_curve (ld_init (Fin u1) (Fin u2)) (Some A) (Some r) (Some t) (Some e) os order (Some false) ld = Ok X /\
    light_table n N X (fun m j => node_mean nodes weights (fun s => flux_at u1 u2 (P j s) (rs j) (rst j)) (ts m) (es m)).
Proof.
  intros u1 u2 A ld n P rst r rs N t ts e es os order nodes weights Hd HA Hrs Hrs0 Hr Ht Hts He Hs.
  exact (plain_ok u1 u2 A ld n P rst Hd HA Hrs Hrs0 r rs Hr N t ts Ht Hts nodes weights es (Some e) os order (conj He Hs)).
Qed.
Lemma lc_mismatch : forall l A ld n P r s N t ts texp es os order,
  answers A ld n P -> ash r = Ok s -> prod s <> n -> (0 < N)%nat -> is_vector N t -> (forall m, (m < N)%nat -> aget t (at_time m) = Fin (ts m)) ->
  opt_exposures N texp es -> (0 <= os)%Z -> (order = 0 \/ order = 1 \/ order = 2)%Z ->
  get_light_curve l (Some A) (Some r) (Some t) texp os order (Some false) ld = Err ShapeErr.
Proof.
  intros l A ld n P r s N t ts texp es os order HA Hr Hm HN Ht Hts He Ho Hor.
  apply (radii_mismatch l A ld n P HA r s Hr Hm N t ts HN Ht Hts texp es os order). destruct texp as [e|]; [|exact I]. split; [exact He|].
  destruct (odd_number_exists os Ho) as (K & EK & _). unfold stencil. rewrite EK. cbn [rbind].
  destruct Hor as [->|[->| ->]]; cbn [Z.eqb]; eexists _, _; reflexivity.
Qed.

(** ** C41, C42 *)
Lemma rev_seq K : rev (seq 0 K) = map (fun i => (K - 1 - i)%nat) (seq 0 K).
Proof.
  apply (nth_ext _ _ O O).
  - rewrite rev_length, map_length. reflexivity.
  - intros i Hi. rewrite rev_length, seq_length in Hi. rewrite rev_nth by (rewrite seq_length; exact Hi). rewrite seq_length, seq_nth by lia.
    rewrite (nth_indep _ O ((fun i => (K - 1 - i)%nat) O)) by (rewrite map_length, seq_length; exact Hi). rewrite (map_nth (fun i => (K - 1 - i)%nat)), seq_nth by exact Hi. lia.
Qed.
Lemma rev_map_seq (X Y : nat -> R) K : (forall i, (i < K)%nat -> X (K - 1 - i)%nat = Y i) -> rev (map X (seq 0 K)) = map Y (seq 0 K).
Proof. intro H. rewrite <- map_rev, rev_seq, map_map. apply map_ext_in. intros i Hi. apply in_seq in Hi. apply H. lia. Qed.
Lemma stencil_rule os order x w : stencil os order = Ok (x, w) ->
  exists K X c, odd_number os = Ok K /\ (x, w) = rule X c K /\ (0 < K)%nat /\ (forall i, 0 < c i) /\
    (forall i, (i < K)%nat -> -1/2 <= X i <= 1/2) /\ (forall i, (i < K)%nat -> c (K - 1 - i)%nat = c i) /\
    (order = 0%Z \/ K <> 1%nat -> forall i, (i < K)%nat -> X (K - 1 - i)%nat = - X i) /\
    ((order = 0%Z /\ X = mids K /\ c = ones) \/ (order = 1%Z /\ X = ends K /\ c = trap K) \/ (order = 2%Z /\ X = ends K /\ c = simp K)).
Proof.
  intro H. destruct (stencil_cases _ _ _ _ H) as (K & EK & C). assert (PK := odd_number_pos _ _ EK). assert (OK := proj1 (odd_number_ok _ _ EK)).
  destruct (C PK) as [[-> E]|[[-> E]|[-> E]]].
  - exists K, (mids K), ones. split; [exact EK|]. split; [exact E|]. split; [exact PK|]. split; [intro; unfold ones; lra|]. split; [intros i Hi; assert (M := mids_in K i Hi); lra|]. split; [reflexivity|].
    split; [intros _ i Hi; apply mids_sym, Hi|]. left. repeat split.
  - exists K, (ends K), (trap K). split; [exact EK|]. split; [exact E|]. split; [exact PK|]. split; [apply trap_pos|]. split; [intros i Hi; apply ends_in, Hi|]. split; [apply trap_sym|].
    split; [intros [D|D] i Hi; [discriminate D|apply ends_sym; assumption]|]. right. left. repeat split.
  - exists K, (ends K), (simp K). split; [exact EK|]. split; [exact E|]. split; [exact PK|]. split; [apply simp_pos|]. split; [intros i Hi; apply ends_in, Hi|]. split; [intro; apply simp_sym, OK|].
    split; [intros [D|D] i Hi; [discriminate D|apply ends_sym; assumption]|]. right. right. repeat split.
Qed.
Lemma K_one os K : odd_number os = Ok K -> (0 <= os)%Z /\ (K = 1%nat <-> (os <= 1)%Z).
Proof.
  intro H. destruct (odd_number_ok _ _ H) as [O E]. assert (P := odd_number_pos _ _ H). split; [lia|]. split; [lia|].
  intro L. destruct (Nat.eq_dec K 1) as [|N]; [assumption|]. assert (K = 2%nat) by lia. subst K. discriminate O.
Qed.
Lemma quadrature : forall os order x w, stencil os order = Ok (x, w) ->
  length x = length w /\ Nat.odd (length x) = true /\ (Z.of_nat (length x) = os \/ Z.of_nat (length x) = os + 1)%Z /\
  List.Forall (fun v => 0 < v) w /\ fold_right Rplus 0 w = 1 /\ List.Forall (fun v => -1/2 <= v <= 1/2) x /\ rev w = w /\
  (order = 0%Z \/ (2 <= os)%Z -> rev x = map Ropp x).
Proof.
  intros os order x w H. destruct (stencil_rule _ _ _ _ H) as (K & X & c & EK & E & PK & Hc & HX & Sc & SX & _). unfold rule in E. injection E as -> ->.
  assert (SP : 0 < sm c K) by (apply sm_pos; [exact PK|intros; apply Hc]). destruct (odd_number_ok _ _ EK) as [O1 O2]. rewrite !map_length, seq_length.
  split; [reflexivity|]. split; [exact O1|]. split; [exact O2|]. split; [|split; [|split; [|split]]].
  - apply List.Forall_forall. intros v Hv. apply in_map_iff in Hv. destruct Hv as (i & <- & _). apply Rdiv_lt_0_compat; [apply Hc|exact SP].
  - change (sm (fun i => c i / sm c K) K = 1). rewrite (sm_ext _ (fun i => / sm c K * c i)) by (intros; unfold Rdiv; ring). rewrite sm_scal. field. lra.
  - apply List.Forall_forall. intros v Hv. apply in_map_iff in Hv. destruct Hv as (i & <- & Hi). apply in_seq in Hi. apply HX. lia.
  - apply rev_map_seq. intros i Hi. rewrite (Sc i Hi). reflexivity.
  - intro G. rewrite map_map. apply rev_map_seq. apply SX. destruct G as [->|G]; [left; reflexivity|right]. destruct (K_one _ _ EK) as [_ K1]. intro. assert (os <= 1)%Z by (apply K1; assumption). lia.
Qed.
Lemma stencil_exists : forall os order, (0 <= os)%Z -> (order = 0 \/ order = 1 \/ order = 2)%Z -> exists x w, stencil os order = Ok (x, w).
Proof.
  intros os order Ho Hor. destruct (odd_number_exists os Ho) as (K & EK & _). unfold stencil. rewrite EK. cbn [rbind].
  destruct Hor as [->|[->| ->]]; cbn [Z.eqb]; eexists _, _; reflexivity.
Qed.
Lemma stencil_error : forall os order, (os < 0)%Z \/ ~ (order = 0 \/ order = 1 \/ order = 2)%Z -> stencil os order = Err ValueError.
Proof.
  intros os order H. unfold stencil. destruct (odd_number os) as [K|e] eqn:E; cbn [rbind].
  - destruct H as [H|H]; [rewrite (odd_number_neg os H) in E; discriminate E|].
    destruct (Z.eqb_spec order 0), (Z.eqb_spec order 1), (Z.eqb_spec order 2); tauto.
  - unfold odd_number in E. cbv zeta in E. destruct (_ <? 0)%Z; [injection E as <-; reflexivity|discriminate E].
Qed.
Lemma quadrature_linear : forall os order x w a0 a1 t e, stencil os order = Ok (x, w) -> order = 0%Z \/ (2 <= os)%Z -> 0 < e ->
  node_mean x w (fun s => a0 + a1 * s) t e = exposure_mean (fun s => a0 + a1 * s) t e.
Proof.
  intros os order x w a0 a1 t e H G He. destruct (stencil_rule _ _ _ _ H) as (K & X & c & EK & E & PK & Hc & HX & Sc & SX & _).
  assert (SP : 0 < sm c K) by (apply sm_pos; [exact PK|intros; apply Hc]).
  assert (G' : order = 0%Z \/ K <> 1%nat). { destruct G as [->|G]; [left; reflexivity|right]. destruct (K_one _ _ EK) as [_ K1]. intro. assert (os <= 1)%Z by (apply K1; assumption). lia. }
  assert (M := rule_mean X c K (cubic a0 a1 0 0) t e). rewrite <- E in M. cbn [fst snd] in M. rewrite (sym_cubic X c K SP Sc (SX G')) in M.
  assert (C := cubic_mean a0 a1 0 0 t e He).
  assert (F : forall s, cubic a0 a1 0 0 s = a0 + a1 * s) by (intro; unfold cubic; ring).
  replace (node_mean x w (fun s => a0 + a1 * s) t e) with (node_mean x w (cubic a0 a1 0 0) t e).
  2:{ unfold node_mean. f_equal. apply map_ext. intros [? ?]. cbn. rewrite F. reflexivity. }
  replace (exposure_mean (fun s => a0 + a1 * s) t e) with (exposure_mean (cubic a0 a1 0 0) t e).
  2:{ unfold exposure_mean. f_equal. apply RInt_ext. intros s _. apply F. }
  rewrite M, C. ring.
Qed.
Lemma odd_two K : Nat.odd K = true -> K <> 1%nat -> exists M, (0 < M)%nat /\ K = (2 * M + 1)%nat.
Proof. intros O N. apply Nat.odd_spec in O. destruct O as [M ->]. exists M. split; [lia|reflexivity]. Qed.
Lemma quadrature_cubic : forall os x w a0 a1 a2 a3 t e, stencil os 2 = Ok (x, w) -> (2 <= os)%Z -> 0 < e ->
  node_mean x w (cubic a0 a1 a2 a3) t e = exposure_mean (cubic a0 a1 a2 a3) t e.
Proof.
  intros os x w a0 a1 a2 a3 t e H G He. destruct (stencil_rule _ _ _ _ H) as (K & X & c & EK & E & PK & Hc & HX & Sc & SX & [[D _]|[[D _]|(_ & -> & ->)]]); try discriminate D.
  assert (K1 : K <> 1%nat). { destruct (K_one _ _ EK) as [_ K1]. intro. assert (os <= 1)%Z by (apply K1; assumption). lia. }
  destruct (odd_two K (proj1 (odd_number_ok _ _ EK)) K1) as (M & HM & ->).
  assert (MM := rule_mean (ends (2 * M + 1)) (simp (2 * M + 1)) (2 * M + 1) (cubic a0 a1 a2 a3) t e). rewrite <- E in MM. cbn [fst snd] in MM. rewrite MM.
  assert (PM : 0 < INR M) by (apply lt_0_INR; lia).
  rewrite (sym_cubic _ _ _ ltac:(rewrite simp_total by exact HM; lra) Sc (SX (or_intror K1))), (simp_moment M HM), (simp_total M HM), (cubic_mean _ _ _ _ _ _ He). field. lra.
Qed.
Lemma one_node : forall os order x w f t e, stencil os order = Ok (x, w) -> order <> 0%Z -> (os <= 1)%Z -> node_mean x w f t e = f (t - e / 2).
Proof.
  intros os order x w f t e H Ho L. destruct (stencil_rule _ _ _ _ H) as (K & X & c & EK & E & PK & Hc & HX & Sc & SX & Ca).
  destruct (K_one _ _ EK) as [_ K1]. assert (K = 1%nat) by (apply K1; exact L). subst K.
  assert (EX : X = ends 1) by (destruct Ca as [[D _]|[(_ & D & _)|(_ & D & _)]]; [contradiction|exact D|exact D]). subst X. injection E as -> ->. unfold node_mean, sm, ends. cbn.
  replace (t + e * -0.5) with (t - e / 2) by lra. assert (P := Hc O). field. lra.
Qed.
Lemma convergence : forall os order x w f L t e, stencil os order = Ok (x, w) -> 0 < e -> lipschitz_during f L t e ->
  (order = 0%Z -> Rabs (node_mean x w f t e - exposure_mean f t e) <= L * e / (4 * INR (length x))) /\
  (order = 1%Z -> (2 <= os)%Z -> Rabs (node_mean x w f t e - exposure_mean f t e) <= L * e / (4 * (INR (length x) - 1))) /\
  (order = 2%Z -> (2 <= os)%Z -> Rabs (node_mean x w f t e - exposure_mean f t e) <= 5 * L * e / (18 * (INR (length x) - 1))).
Proof.
  intros os order x w f L t e H He Hf. destruct (stencil_rule _ _ _ _ H) as (K & X & c & EK & E & PK & Hc & HX & Sc & SX & Ca).
  assert (MM := rule_mean X c K f t e). rewrite <- E in MM. cbn [fst snd] in MM. rewrite MM. assert (LK : length x = K) by (injection E as -> _; rewrite map_length, seq_length; reflexivity). rewrite LK.
  assert (K2 : (2 <= os)%Z -> exists M, (0 < M)%nat /\ K = (2 * M + 1)%nat).
  { intro G. apply odd_two; [apply (odd_number_ok _ _ EK)|]. destruct (K_one _ _ EK) as [_ K1]. intro. assert (os <= 1)%Z by (apply K1; assumption). lia. }
  destruct Ca as [(-> & -> & ->)|[(-> & -> & ->)|(-> & -> & ->)]]; (split; [intro D; try discriminate D|split; [intro D; try discriminate D|intro D; try discriminate D]]).
  - apply conv0; assumption.
  - intro G. destruct (K2 G) as (M & HM & EM). rewrite EM. rewrite Nat.add_1_r. replace (INR (S (2 * M)) - 1) with (INR (2 * M)) by (rewrite S_INR; ring). apply (conv1 f L t e He Hf (2 * M)). lia.
  - intro G. destruct (K2 G) as (M & HM & ->). assert (PM : 0 < INR M) by (apply lt_0_INR; lia). replace (18 * (INR (2 * M + 1) - 1)) with (36 * INR M) by (rewrite plus_INR, mult_INR; cbn [INR]; ring). apply (conv2 f L t e He Hf M HM).
Qed.

(** ** C40 *)
Lemma nodes_inside os order x w : stencil os order = Ok (x, w) -> forall p, In p (combine x w) -> -1/2 <= fst p <= 1/2.
Proof.
  intros H [a b] Hp. apply in_combine_l in Hp. destruct (quadrature _ _ _ _ H) as (_ & _ & _ & _ & _ & F & _). rewrite List.Forall_forall in F. apply F, Hp.
Qed.
Lemma mean_zero x w f t e : (forall p, In p (combine x w) -> f (t + e * fst p) = 0) -> node_mean x w f t e = 0.
Proof.
  unfold node_mean. induction (combine x w) as [|p l IH]; intro H; [reflexivity|]. cbn. rewrite IH, H; [ring|left; reflexivity|]. intros q Hq. apply H. right. exact Hq.
Qed.
Lemma not_overlap u1 u2 P rp rst : disk_flux u1 u2 <> 0 -> 0 <= rp -> 0 < rst -> ~ overlaps P rp rst -> flux_at u1 u2 P rp rst = 0.
Proof.
  intros Hd Hr Hs H. unfold flux_at. apply rel_flux_out; [exact Hd|]. destruct (Rlt_dec 0 (vz P)) as [Hz|Hz].
  - left. assert (D : rst + rp <= sqrt (vx P * vx P + vy P * vy P)) by (apply Rnot_lt_le; intro; apply H; split; assumption).
    rewrite !Rabs_pos_eq; try (apply Rdiv_le_0_compat; [try apply sqrt_pos; assumption|exact Hs]).
    replace 1 with (rst / rst) by (field; lra). unfold Rdiv. rewrite <- Rmult_plus_distr_r. apply Rmult_le_compat_r; [left; apply Rinv_0_lt_compat; exact Hs|exact D].
  - right. unfold Rdiv. assert (0 < / rst) by (apply Rinv_0_lt_compat; exact Hs). nra.
Qed.
Lemma radii_flat n r rs : elements n r rs -> planet_values n (areshape (rmap (fun s => [prod s]) (ash r)) r) rs.
Proof.
  intro H. assert (S := r_sh n r rs H). assert (V := r_val n r rs H). cbv zeta in *. split; [split; [|right; exact S]|].
  - intros s Hs i j Hij. rewrite S in Hs. injection Hs as <-. destruct H as [(s & Es & Ep) _]. rewrite Es. cbn [rmap].
    rewrite !(reshape_at r s _ _ Es). f_equal. rewrite Ep. cbn [lin]. destruct (Nat.eqb_spec n 1) as [|N1]; [reflexivity|]. f_equal. apply Hij. cbn. exact N1.
  - intros j Hj. apply V. exact Hj.
Qed.
Lemma lc_masked : forall u1 u2 A ld n P rst r rs N t ts texp es os order,
  disk_flux u1 u2 <> 0 -> answers A ld n P -> planet_numbers n (oa_r_star A) rst -> (forall j, (j < n)%nat -> 0 < rst j) ->
  elements n r rs -> (forall j, (j < n)%nat -> 0 <= rs j) -> is_vector N t -> (forall m, (m < N)%nat -> aget t (at_time m) = Fin (ts m)) ->
  opt_exposures N texp es -> (forall m, (m < N)%nat -> 0 <= es m) -> (0 <= os)%Z -> (order = 0 \/ order = 1 \/ order = 2)%Z ->
  finds_transits A ld n P rst rs N t ts texp es ->
  exists X Y f, get_light_curve (ld_init (Fin u1) (Fin u2)) (Some A) (Some r) (Some t) texp os order (Some true) ld = Ok X /\
    get_light_curve (ld_init (Fin u1) (Fin u2)) (Some A) (Some r) (Some t) texp os order (Some false) ld = Ok Y /\
    light_table n N X f /\ light_table n N Y f.
Proof.
  intros u1 u2 A ld n P rst r rs N t ts texp es os order Hd HA Hrs Hrs0 Hr Hr0 Ht Hts He He0 Ho Hor HF.
  destruct (HF _ (radii_flat n r rs Hr)) as (inds & Hi & Hb & Hc). destruct (stencil_exists os order Ho Hor) as (nodes & weights & St).
  assert (Hs0 : forall j, (j < n)%nat -> rst j <> 0) by (intros j Hj; assert (A0 := Hrs0 j Hj); lra).
  assert (He' : match texp with None => True | Some e => exposures N e es /\ stencil os order = Ok (nodes, weights) end) by (destruct texp; [split; [exact He|exact St]|exact I]).
  destruct (plain_ok u1 u2 A ld n P rst Hd HA Hrs Hs0 r rs Hr N t ts Ht Hts nodes weights es texp os order He') as (Y & EY & TY).
  destruct (masked_ok u1 u2 A ld n P rst Hd HA Hrs Hs0 r rs Hr N t ts Ht Hts nodes weights es texp os order He' inds Hi Hb) as (X & EX & SX & VX).
  exists X, Y, (mean_flux u1 u2 P rst rs ts nodes weights es texp). split; [exact EX|]. split; [exact EY|]. split; [|exact TY]. split; [exact SX|].
  intros m j Hm Hj. destruct (VX m j Hm Hj) as [V1 V2]. destruct (in_dec Nat.eq_dec m inds) as [I|I]; [apply V1, I|]. rewrite (V2 I). f_equal. symmetry.
  assert (Z : forall s, Rabs (s - ts m) <= es m / 2 -> fluxj u1 u2 P rst rs j s = 0).
  { intros s Hs. unfold fluxj. apply not_overlap; [exact Hd|apply Hr0, Hj|apply Hrs0, Hj|]. intro O. apply I, (Hc m j s Hm Hj Hs O). }
  unfold mean_flux. destruct texp as [e|].
  - apply mean_zero. intros p Hp. apply Z. assert (B := nodes_inside _ _ _ _ St p Hp). assert (E0 := He0 m Hm). apply Rabs_le. split; nra.
  - apply Z. rewrite Rminus_diag_eq, Rabs_R0 by reflexivity. assert (E0 := He0 m Hm). lra.
Qed.
