(** * bls_estimator *)
From Coq Require Import Reals List Bool Arith ZArith String Lia Lra Sorted.
From Verif Require Import Num CoreOps Inst M_kwargs M_tensor M_dist M_ttv M_peaks M_acorr M_bls Spec_peaks Spec_acorr Spec_bls Spec_ecc L_params3 L_dist1 L_ecc1 L_peaks1 L_peaks2 L_acorr1 L_acorr2 Ex_peaks Ex_bls.
Import ListNotations.
Local Notation length := List.length.
Open Scope R_scope.

Lemma ff_loop_spec call n fuel : forall j ff v, ff = 2 ^ j -> (forall i, (i < j)%nat -> exists ps, call (2 ^ i) = Ok ps /\ (n < length ps)%nat) ->
  ff_loop fuel call ff n = Ok v -> exists m, v = 2 ^ m /\ (exists ps, call (2 ^ m) = Ok ps /\ (length ps <= n)%nat) /\ forall i, (i < m)%nat -> exists ps, call (2 ^ i) = Ok ps /\ (n < length ps)%nat.
Proof.
  induction fuel as [|fuel IH]; intros j ff v -> B E; cbn [ff_loop] in E; [discriminate|]. destruct (call (2 ^ j)) as [ps|] eqn:EC; [|discriminate]. cbn [rbind] in E.
  destruct (Nat.ltb_spec n (length ps)) as [L|L].
  - apply (IH (S j) (2 ^ j * 2) v); [cbn; ring| |exact E]. intros i Hi. destruct (Nat.eq_dec i j) as [->|N]; [exists ps; split; assumption|apply B; lia].
  - apply Ok_inj in E. subst v. exists j. split; [reflexivity|]. split; [exists ps; split; assumption|exact B].
Qed.
Lemma ff_loop_stops call n C : (1 <= n)%nat -> (forall ff, 0 < ff -> exists ps, call ff = Ok ps /\ INR (length ps) <= 1 + C / ff) ->
  exists N v, forall fuel, (fuel >= N)%nat -> ff_loop fuel call 1 n = Ok v.
Proof.
  intros N1 H. assert (G : forall m ff, 0 < ff -> C < ff * 2 ^ m -> exists N v, forall fuel, (fuel >= N)%nat -> ff_loop fuel call ff n = Ok v).
  { induction m as [|m IH]; intros ff P B; destruct (H ff P) as (ps & E & L).
    - exists 1%nat, ff. intros fuel F. destruct fuel as [|fuel]; [lia|]. cbn [ff_loop]. rewrite E. cbn [rbind]. destruct (Nat.ltb_spec n (length ps)) as [Q|Q]; [exfalso|reflexivity].
      assert (C / ff < 1). { apply (Rmult_lt_reg_r ff); [exact P|]. unfold Rdiv. rewrite Rmult_assoc, Rinv_l by lra. cbn in B. lra. } assert (INR (length ps) < INR 2) by (cbn [INR]; lra). apply INR_lt in H1. lia.
    - destruct (Nat.ltb n (length ps)) eqn:Q.
      + destruct (IH (ff * 2)) as (N & v & HN); [lra|cbn in B; lra|]. exists (S N), v. intros fuel F. destruct fuel as [|fuel]; [lia|]. cbn [ff_loop]. rewrite E. cbn [rbind]. rewrite Q. apply HN. lia.
      + exists 1%nat, ff. intros fuel F. destruct fuel as [|fuel]; [lia|]. cbn [ff_loop]. rewrite E. cbn [rbind]. rewrite Q. reflexivity. }
  destruct (Pow_x_infinity 2 ltac:(rewrite Rabs_pos_eq; lra) (C + 1)) as (M & HM). apply (G M 1); [lra|]. specialize (HM M (le_n _)). rewrite Rabs_pos_eq in HM by (apply pow_le; lra). lra.
Qed.

Lemma sent_one (fixed kw kw' : dict) k v : sent fixed kw kw' -> ~ In k (map fst fixed) -> sent (fixed ++ [(k, v)]) kw (dset k v kw').
Proof.
  intros [F O] N. split.
  - intros k' v' I. apply in_app_or in I. destruct I as [I|[E|[]]].
    + rewrite dget_set_other; [apply F; exact I|]. intros ->. apply N. apply in_map_iff. exists (k, v'). split; [reflexivity|exact I].
    + injection E as <- <-. apply dget_set_same.
  - intros k' NI. rewrite map_app in NI. cbn in NI. rewrite dget_set_other; [apply O; intro; apply NI, in_or_app; left; assumption|]. intros ->. apply NI, in_or_app. right. left. reflexivity.
Qed.
Lemma sent_nil kw : sent [] kw kw. Proof. split; [intros ? ? []|reflexivity]. Qed.

Definition kw2 (minp maxp : pyv) (kw : dict) : dict := dset "maximum_period" (upper_kw kw maxp) (dset "minimum_period" (lower_kw kw minp) kw).
Lemma kw2_eq minp maxp kw : (let kw := dset "minimum_period" (get_default "minimim_period" kw minp) kw in dset "maximum_period" (get_default "maximum_period" kw maxp) kw) = kw2 minp maxp kw.
Proof. cbv zeta. unfold kw2. f_equal. unfold get_default, upper_kw. rewrite dget_set_other by discriminate. reflexivity. Qed.
Lemma kw2_sent minp maxp kw : sent [("minimum_period"%string, lower_kw kw minp); ("maximum_period"%string, upper_kw kw maxp)] kw (kw2 minp maxp kw).
Proof.
  unfold kw2. apply (sent_one [("minimum_period"%string, lower_kw kw minp)]); [|cbn; intros [|[]]; discriminate]. apply (sent_one []); [apply sent_nil|intros []].
Qed.
Lemma kw3_sent minp maxp kw ff : sent [("minimum_period"%string, lower_kw kw minp); ("maximum_period"%string, upper_kw kw maxp); ("frequency_factor"%string, ff)] kw (dset "frequency_factor" ff (kw2 minp maxp kw)).
Proof. apply (sent_one [("minimum_period"%string, lower_kw kw minp); ("maximum_period"%string, upper_kw kw maxp)]); [apply kw2_sent|]. cbn. intros [|[|[]]]; discriminate. Qed.
Lemma kw2_ff minp maxp kw : dget "frequency_factor" (kw2 minp maxp kw) = dget "frequency_factor" kw.
Proof. apply (proj2 (kw2_sent minp maxp kw)). cbn. intros [|[|[]]]; discriminate. Qed.

(** the rest of the function *)
Definition finish (argsort : list fl -> list nat) (pg : pgram) : res bls_out :=
  peaks <- find_peaks argsort (map (fun p => 1 / p) (pg_period pg)) (pg_power pg) 1 ;;
  match peaks with
  | OnePeak _ => Err TypeErr
  | PeakList [] => Ok {| bo_bls := pg; bo_peaks := []; bo_info := None |}
  | PeakList (p :: ps) =>
      info <- rlist (map (fun kv => v <- at_index (pk_index p) (snd kv) ;; Ok (fst kv, v)) (pg_arrays pg)) ;;
      Ok {| bo_bls := pg; bo_peaks := p :: ps; bo_info := Some info |}
  end.
Definition extras (obj meth ov : pyv) : dict := [("objective"%string, obj); ("method"%string, meth); ("oversample"%string, ov)].
Lemma bls_eq fuel argsort A x y yerr dur minp maxp obj meth ov kw : bls_estimator fuel argsort A x y yerr dur minp maxp obj meth ov kw =
  (a <- amin x ;; b <- amax x ;; let t0 := 0.5 * (a + b) in let t := centred x t0 in
   kw' <- match dget "frequency_factor" (kw2 minp maxp kw) with
          | Some _ => Ok (kw2 minp maxp kw)
          | None => ff <- ff_loop fuel (fun ff => autoperiod A t y yerr dur (dset "frequency_factor" (pfloat ff) (kw2 minp maxp kw))) 1 (length x) ;; Ok (dset "frequency_factor" (pfloat ff) (kw2 minp maxp kw))
          end ;;
   kw'' <- dmerge (extras obj meth ov) kw' ;; pg <- autopower A t y yerr dur kw'' ;; finish argsort (shift_transits t0 pg)).
Proof. unfold bls_estimator. rewrite <- (kw2_eq minp maxp kw). reflexivity. Qed.
Lemma finish_bls argsort pg out : finish argsort pg = Ok out -> bo_bls out = pg.
Proof.
  unfold finish. destruct (find_peaks _ _ _ _) as [[p|[|p ps]]|]; cbn [rbind]; try discriminate.
  - intro E. apply Ok_inj in E. subst out. reflexivity.
  - destruct (rlist _); cbn [rbind]; [|discriminate]. intro E. apply Ok_inj in E. subst out. reflexivity.
Qed.
Lemma merge_sent obj meth ov kw' kw'' fixed kw : sent fixed kw kw' -> (forall k, In k (map fst (extras obj meth ov)) -> ~ In k (map fst fixed)) -> dmerge (extras obj meth ov) kw' = Ok kw'' -> sent (fixed ++ extras obj meth ov) kw kw''.
Proof.
  intros [F O] D E. unfold dmerge in E. destruct (existsb _ _); [discriminate|]. apply Ok_inj in E. subst kw''. split.
  - intros k v I. rewrite dget_app. apply in_app_or in I. destruct I as [I|I].
    + assert (NE : ~ In k (map fst (extras obj meth ov))) by (intro Q; apply (D k Q); apply in_map_iff; exists (k, v); split; [reflexivity|exact I]).
      assert (dget k (extras obj meth ov) = None) as ->; [|apply F; exact I]. unfold extras in *. rewrite !dget_cons. cbn [map fst In] in NE.
      destruct (String.eqb_spec k "objective"); [subst; tauto|]. destruct (String.eqb_spec k "method"); [subst; tauto|]. destruct (String.eqb_spec k "oversample"); [subst; tauto|]. reflexivity.
    + destruct I as [Q|[Q|[Q|[]]]]; injection Q as <- <-; reflexivity.
  - intros k N. rewrite map_app in N. rewrite dget_app. assert (dget k (extras obj meth ov) = None) as ->; [|apply O; intro; apply N, in_or_app; left; assumption].
    assert (NE : ~ In k (map fst (extras obj meth ov))) by (intro; apply N, in_or_app; right; assumption). unfold extras in *. rewrite !dget_cons. cbn [map fst In] in NE.
    destruct (String.eqb_spec k "objective"); [subst; tauto|]. destruct (String.eqb_spec k "method"); [subst; tauto|]. destruct (String.eqb_spec k "oversample"); [subst; tauto|]. reflexivity.
Qed.
Theorem bls_call : forall fuel argsort A x y yerr dur minp maxp obj meth ov kw out, bls_estimator fuel argsort A x y yerr dur minp maxp obj meth ov kw = Ok out ->
  exists t0 ff kw' pg, midpoint x t0 /\
    factor_used A (centred x t0) y yerr dur (lower_kw kw minp) (upper_kw kw maxp) kw ff /\
    sent [("minimum_period"%string, lower_kw kw minp); ("maximum_period"%string, upper_kw kw maxp); ("frequency_factor"%string, ff);
          ("objective"%string, obj); ("method"%string, meth); ("oversample"%string, ov)] kw kw' /\
    autopower A (centred x t0) y yerr dur kw' = Ok pg /\ bo_bls out = shift_transits t0 pg.
Proof.
  intros fuel argsort A x y yerr dur minp maxp obj meth ov kw out E. rewrite bls_eq in E. destruct (amin x) as [a|] eqn:EA; [|discriminate]. cbn [rbind] in E. destruct (amax x) as [b|] eqn:EB; [|discriminate]. cbn [rbind] in E. cbv zeta in E.
  set (t0 := 0.5 * (a + b)) in *. set (t := centred x t0) in *. assert (MP : midpoint x t0) by (exists a, b; split; [apply amin_least, EA|split; [apply amax_greatest, EB|unfold t0; lra]]).
  assert (LT : length t = length x) by apply map_length. rewrite kw2_ff in E.
  assert (G : exists ff kw', factor_used A t y yerr dur (lower_kw kw minp) (upper_kw kw maxp) kw ff /\ sent [("minimum_period"%string, lower_kw kw minp); ("maximum_period"%string, upper_kw kw maxp); ("frequency_factor"%string, ff)] kw kw' /\
     (kw'' <- dmerge (extras obj meth ov) kw' ;; pg <- autopower A t y yerr dur kw'' ;; finish argsort (shift_transits t0 pg)) = Ok out).
  { unfold factor_used. destruct (dget "frequency_factor" kw) as [v|] eqn:EF.
    - cbn [rbind] in E. exists v, (kw2 minp maxp kw). split; [reflexivity|]. split; [|exact E]. destruct (kw2_sent minp maxp kw) as [F O]. split.
      + intros k w [Q|[Q|[Q|[]]]]; injection Q as <- <-; [apply F; left; reflexivity|apply F; right; left; reflexivity|]. rewrite kw2_ff. exact EF.
      + intros k N. apply O. intros [Q|[Q|[]]]; apply N; cbn; tauto.
    - destruct (ff_loop _ _ _ _) as [v|] eqn:EL; [|discriminate]. cbn [rbind] in E. exists (pfloat v), (dset "frequency_factor" (pfloat v) (kw2 minp maxp kw)). split; [|split; [apply kw3_sent|exact E]].
      destruct (ff_loop_spec _ _ _ 0%nat 1 v eq_refl ltac:(intros; lia) EL) as (m & -> & (ps & C1 & L1) & B). exists m. split; [reflexivity|]. rewrite LT. split.
      + exists (length ps). split; [|exact L1]. exists (dset "frequency_factor" (pfloat (2 ^ m)) (kw2 minp maxp kw)), ps. split; [apply kw3_sent|]. split; [exact C1|reflexivity].
      + intros i Hi. destruct (B i Hi) as (qs & C2 & L2). exists (length qs). split; [|exact L2]. exists (dset "frequency_factor" (pfloat (2 ^ i)) (kw2 minp maxp kw)), qs. split; [apply kw3_sent|]. split; [exact C2|reflexivity]. }
  destruct G as (ff & kw' & FU & SE & G). destruct (dmerge _ kw') as [kw''|] eqn:EM; [|discriminate]. cbn [rbind] in G. destruct (autopower A t y yerr dur kw'') as [pg|] eqn:EP; [|discriminate]. cbn [rbind] in G.
  exists t0, ff, kw'', pg. split; [exact MP|]. split; [exact FU|]. split; [|split; [exact EP|apply finish_bls in G; exact G]].
  apply (merge_sent obj meth ov kw' kw'' _ kw SE); [|exact EM]. intros k I J. cbn [map fst extras In] in I, J. destruct I as [<-|[<-|[<-|[]]]]; destruct J as [Q|[Q|[Q|[]]]]; discriminate.
Qed.
(** an explicit minimum_period has no influence *)
Theorem bls_minimum : forall fuel argsort A x y yerr dur minp maxp obj meth ov kw,
  bls_estimator fuel argsort A x y yerr dur minp maxp obj meth ov kw = bls_estimator fuel argsort A x y yerr dur minp maxp obj meth ov (ddel "minimum_period" kw).
Proof.
  intros. rewrite !bls_eq. assert (E : kw2 minp maxp (ddel "minimum_period" kw) = kw2 minp maxp kw); [|rewrite E; reflexivity].
  unfold kw2, upper_kw, lower_kw. rewrite !dget_del_other by discriminate. f_equal. unfold dset. f_equal. unfold ddel. clear. induction kw as [|[k v] kw IH]; [reflexivity|]. cbn [filter fst]. destruct (String.eqb k "minimum_period") eqn:Q; cbn [negb]; [exact IH|]. cbn [filter fst]. rewrite Q. cbn [negb]. rewrite IH. reflexivity.
Qed.
(** the misspelt keyword is an error *)
Theorem bls_typo : forall fuel argsort A x y yerr dur minp maxp obj meth ov kw, rejects A "minimim_period" -> x <> [] -> (0 < fuel)%nat -> dget "minimim_period" kw <> None ->
  bls_estimator fuel argsort A x y yerr dur minp maxp obj meth ov kw = Err TypeErr.
Proof.
  intros fuel argsort A x y yerr dur minp maxp obj meth ov kw RJ NE FP HK. rewrite bls_eq. destruct (amin_total x NE) as (a & ->). destruct (amax_total x NE) as (b & ->). cbn [rbind]. cbv zeta. rewrite kw2_ff.
  assert (K2 : dget "minimim_period" (kw2 minp maxp kw) <> None) by (rewrite (proj2 (kw2_sent minp maxp kw)); [exact HK|cbn; intros [|[|[]]]; discriminate]).
  assert (M : forall kw', dget "minimim_period" kw' <> None -> (kw'' <- dmerge (extras obj meth ov) kw' ;; pg <- autopower A (centred x (0.5 * (a + b))) y yerr dur kw'' ;; finish argsort (shift_transits (0.5 * (a + b)) pg)) = Err TypeErr).
  { intros kw' H. unfold dmerge. destruct (existsb _ _); [reflexivity|]. cbn [rbind]. assert (H2 : dget "minimim_period" (extras obj meth ov ++ kw') <> None) by (rewrite dget_app; exact H). rewrite (proj2 (RJ _ _ _ _ _ H2)). reflexivity. }
  destruct (dget "frequency_factor" kw) as [v|]; [cbn [rbind]; apply M; exact K2|].
  destruct fuel as [|fuel]; [lia|]. cbn [ff_loop]. assert (H2 : dget "minimim_period" (dset "frequency_factor" (pfloat 1) (kw2 minp maxp kw)) <> None) by (rewrite dget_set_other by discriminate; exact K2). rewrite (proj1 (RJ _ _ _ _ _ H2)). reflexivity.
Qed.

Lemma recip_mono l : List.Forall (fun p => 0 < p) l -> strictly_monotone l -> strictly_monotone (map (fun p => 1 / p) l).
Proof.
  assert (G : forall (P Q : R -> R -> Prop), (forall a b, 0 < a -> 0 < b -> P a b -> Q (1 / a) (1 / b)) -> forall l, List.Forall (fun p => 0 < p) l -> StronglySorted P l -> StronglySorted Q (map (fun p => 1 / p) l)).
  { intros P Q H l0 F S0. induction S0 as [|a l0 S0 IH FA]; cbn; constructor; [apply IH; exact (Forall_inv_tail F)|]. assert (PA := Forall_inv F). apply Forall_inv_tail in F. rewrite Forall_forall in *. intros y Y. apply in_map_iff in Y. destruct Y as (b & <- & B). apply H; [exact PA|apply F; exact B|apply FA; exact B]. }
  intros F [S0|S0]; [right; apply (G Rlt Rgt)|left; apply (G Rgt Rlt)]; try assumption.
  - intros a b PA PB H. unfold Rdiv. rewrite !Rmult_1_l. apply Rinv_lt_contravar; [apply Rmult_lt_0_compat; lra|lra].
  - intros a b PA PB H. unfold Rdiv. rewrite !Rmult_1_l. apply Rinv_lt_contravar; [apply Rmult_lt_0_compat; lra|lra].
Qed.
Lemma info_ok pg i n : (i < n)%nat -> (forall k v, In (k, v) (pg_arrays pg) -> length v = n) ->
  exists info, rlist (map (fun kv => v <- at_index i (snd kv) ;; Ok (fst kv, v)) (pg_arrays pg)) = Ok info /\ info_at pg i info.
Proof.
  intros Hi. unfold info_at. change (columns pg) with (pg_arrays pg). induction (pg_arrays pg) as [|[k l] ar IH]; intro H.
  - exists []. split; [reflexivity|]. split; [reflexivity|]. intros k v. split; [intros []|intros (l & [] & _)].
  - destruct IH as (info & E & E1 & E2); [intros; apply (H k0); right; assumption|]. assert (LL := H k l (or_introl eq_refl)).
    destruct (nth_error l i) as [v|] eqn:N; [|apply nth_error_None in N; lia]. exists ((k, v) :: info). cbn [map rlist snd fst]. unfold at_index at 1. rewrite N. cbn [rbind]. cbn [rlist]. rewrite E. cbn [rbind]. split; [reflexivity|]. split; [cbn; f_equal; exact E1|].
    intros k' v'. split.
    + intros [Q|Q]; [injection Q as <- <-; exists l; split; [left; reflexivity|exact N]|]. apply E2 in Q. destruct Q as (l' & I & N'). exists l'. split; [right; exact I|exact N'].
    + intros (l' & [Q|I] & N'); [injection Q as <- <-; left; congruence|]. right. apply E2. exists l'. split; assumption.
Qed.
Lemma good_arrays pg ps t0 : good_pgram pg ps -> forall k v, In (k, v) (pg_arrays (shift_transits t0 pg)) -> length v = length ps.
Proof.
  intros G k v I. unfold pg_arrays, shift_transits in I. cbn [pg_period pg_power pg_transit_time pg_other] in I. destruct I as [Q|[Q|[Q|I]]]; [injection Q as <- <-..|].
  - rewrite map_length. apply (gp_len _ _ G).
  - rewrite (gp_power _ _ G), map_length. reflexivity.
  - rewrite map_length. apply (gp_transit _ _ G).
  - exact (gp_other _ _ G k v I).
Qed.
(** peaks and peak_info *)
Lemma finish_ok argsort pg ps t0 : sorts argsort -> good_pgram pg ps -> exists out, finish argsort (shift_transits t0 pg) = Ok out /\ bls_peaks pg ps out.
Proof.
  intros SO G. unfold finish. cbn [shift_transits pg_period pg_power]. rewrite (gp_power _ _ G).
  destruct (find_peaks_law argsort (map (fun p => 1 / p) (pg_period pg)) ps 1 SO) as (is & pks & C & F & E).
  { rewrite map_length. exact (gp_len _ _ G). }
  { apply recip_mono; [exact (gp_pos _ _ G)|exact (gp_mono _ _ G)]. }
  { apply Forall_forall. intros f I. apply in_map_iff in I. destruct I as (p & <- & I). assert (P := gp_pos _ _ G). rewrite Forall_forall in P. specialize (P p I). apply Rlt_le, Rdiv_lt_0_compat; lra. }
  rewrite E. cbn [Z.eqb rbind]. unfold bls_peaks. destruct F as [|i p is pks D F].
  - eexists. split; [reflexivity|]. left. split; [reflexivity|]. split; [reflexivity|]. intros i Hi. destruct (ch_rest _ _ _ C i Hi) as [Q _]; [intros []|]. discriminate Q.
  - assert (LI := ch_len _ _ _ C). cbn in LI. assert (is = []) by (destruct is; [reflexivity|cbn in LI; lia]). subst is. inversion F; subst pks. clear F.
    assert (SP := ch_peaks _ _ _ C i (or_introl eq_refl)).
    destruct (info_ok (shift_transits t0 pg) (pk_index p) (length ps)) as (info & EI & IA); [rewrite (proj1 D); destruct SP as (_ & H & _); exact H|apply good_arrays; exact G|].
    rewrite EI. cbn [rbind]. eexists. split; [reflexivity|]. right. exists i, p, info. cbn [bo_peaks bo_info bo_bls]. do 3 (split; [first [reflexivity|exact SP]|]). split; [|split; [exact D|rewrite <- (proj1 D); exact IA]].
    intros j Hj. destruct (Nat.eq_dec j i) as [->|N]; [lra|]. destruct (ch_rest _ _ _ C j Hj) as [_ Q]; [intros [Q|[]]; apply N; congruence|]. apply Q. left. reflexivity.
Qed.
Theorem bls_peak : forall fuel argsort A x y yerr dur minp maxp obj meth ov kw out, sorts argsort -> returns_good A ->
  bls_estimator fuel argsort A x y yerr dur minp maxp obj meth ov kw = Ok out ->
  exists t0 pg ps, midpoint x t0 /\ good_pgram pg ps /\ bo_bls out = shift_transits t0 pg /\ bls_peaks pg ps out.
Proof.
  intros fuel argsort A x y yerr dur minp maxp obj meth ov kw out SO GP E. destruct (bls_call _ _ _ _ _ _ _ _ _ _ _ _ _ _ E) as (t0' & _ & _ & _ & MP' & _ & _ & _ & _). rewrite bls_eq in E. destruct (amin x) as [a|] eqn:EA; [|discriminate]. cbn [rbind] in E. destruct (amax x) as [b|] eqn:EB; [|discriminate]. cbn [rbind] in E. cbv zeta in E. set (t0 := 0.5 * (a + b)) in *.
  destruct (match dget "frequency_factor" (kw2 minp maxp kw) with Some _ => _ | None => _ end) as [kw'|]; [|discriminate]. cbn [rbind] in E. destruct (dmerge _ kw') as [kw''|]; [|discriminate]. cbn [rbind] in E.
  destruct (autopower A (centred x t0) y yerr dur kw'') as [pg|] eqn:EP; [|discriminate]. cbn [rbind] in E. destruct (GP _ _ _ _ _ _ EP) as (ps & G). destruct (finish_ok argsort pg ps t0 SO G) as (out' & EO & BP). rewrite EO in E. apply Ok_inj in E. subst out'.
  exists t0, pg, ps. split; [exists a, b; split; [apply amin_least, EA|split; [apply amax_greatest, EB|unfold t0; lra]]|]. split; [exact G|]. split; [|exact BP]. apply finish_bls in EO. exact EO.
Qed.
Theorem bls_defined : forall argsort A x y yerr dur minp maxp obj meth ov kw, sorts argsort -> x <> [] -> absent ["objective"; "method"; "oversample"]%string kw ->
  (forall t0, grid_shrinks A (centred x t0) y yerr dur (lower_kw kw minp) (upper_kw kw maxp) kw) -> (forall t0, accepts A (centred x t0) y yerr dur kw) -> returns_good A ->
  exists N out, forall fuel, (fuel >= N)%nat -> bls_estimator fuel argsort A x y yerr dur minp maxp obj meth ov kw = Ok out.
Proof.
  intros argsort A x y yerr dur minp maxp obj meth ov kw SO NE AB GS AC GP. destruct (amin_total x NE) as (a & EA). destruct (amax_total x NE) as (b & EB). set (t0 := 0.5 * (a + b)).
  assert (M : forall kw', (forall k, In k (map fst (extras obj meth ov)) -> dget k kw' = None) -> (forall k, k <> "minimum_period"%string -> k <> "maximum_period"%string -> k <> "frequency_factor"%string -> dget k kw' = dget k kw) ->
     exists out, (kw'' <- dmerge (extras obj meth ov) kw' ;; pg <- autopower A (centred x t0) y yerr dur kw'' ;; finish argsort (shift_transits t0 pg)) = Ok out).
  { intros kw' H HO. rewrite dmerge_ok by exact H. cbn [rbind]. destruct (AC t0 (extras obj meth ov ++ kw')) as (pg & EP).
    { intros k K. rewrite dget_app in K. unfold extras in K. rewrite !dget_cons in K.
      destruct (String.eqb_spec k "objective"); [subst; right; cbn; tauto|]. destruct (String.eqb_spec k "method"); [subst; right; cbn; tauto|]. destruct (String.eqb_spec k "oversample"); [subst; right; cbn; tauto|]. cbn [dget lookup] in K.
      destruct (String.eqb_spec k "minimum_period"); [subst; right; cbn; tauto|]. destruct (String.eqb_spec k "maximum_period"); [subst; right; cbn; tauto|]. destruct (String.eqb_spec k "frequency_factor"); [subst; right; cbn; tauto|].
      left. rewrite <- HO by assumption. exact K. }
    rewrite EP. cbn [rbind]. destruct (GP _ _ _ _ _ _ EP) as (ps & G). destruct (finish_ok argsort pg ps t0 SO G) as (out & -> & _). exists out. reflexivity. }
  assert (AB2 : forall k, In k (map fst (extras obj meth ov)) -> dget k (kw2 minp maxp kw) = None).
  { intros k I. rewrite (proj2 (kw2_sent minp maxp kw)); [apply AB; exact I|]. destruct I as [<-|[<-|[<-|[]]]]; cbn; intros [Q|[Q|[]]]; discriminate. }
  assert (O2 : forall k, k <> "minimum_period"%string -> k <> "maximum_period"%string -> dget k (kw2 minp maxp kw) = dget k kw).
  { intros k N1 N2. apply (proj2 (kw2_sent minp maxp kw)). cbn. intros [Q|[Q|[]]]; congruence. }
  destruct (dget "frequency_factor" kw) as [v|] eqn:EF.
  - destruct (M (kw2 minp maxp kw) AB2) as (out & EO). { intros; apply O2; assumption. } exists 0%nat, out. intros fuel _. rewrite bls_eq, EA. cbn [rbind]. rewrite EB. cbn [rbind]. cbv zeta. rewrite kw2_ff, EF. cbn [rbind]. exact EO.
  - destruct (GS t0) as (C & HC).
    destruct (ff_loop_stops (fun ff => autoperiod A (centred x t0) y yerr dur (dset "frequency_factor" (pfloat ff) (kw2 minp maxp kw))) (length x) C) as (N & v & HN).
    { destruct x; [contradiction|cbn; lia]. }
    { intros ff P. apply HC; [exact P|]. apply kw3_sent. }
    destruct (M (dset "frequency_factor" (pfloat v) (kw2 minp maxp kw))) as (out & EO).
    { intros k I. rewrite dget_set_other; [apply AB2; exact I|]. destruct I as [<-|[<-|[<-|[]]]]; discriminate. }
    { intros k N1 N2 N3. rewrite dget_set_other by exact N3. apply O2; assumption. }
    exists N, out. intros fuel F. rewrite bls_eq, EA. cbn [rbind]. rewrite EB. cbn [rbind]. cbv zeta. rewrite kw2_ff, EF. fold t0. rewrite (HN fuel F). cbn [rbind]. exact EO.
Qed.

(** counterexamples *)
Lemma ex_run minp kw : ex_known_kw kw -> absent ["objective"; "method"; "oversample"]%string kw -> exists N out, forall fuel, (fuel >= N)%nat ->
  bls_estimator fuel isort ex_astropy [0; 1; 2] [1; 1; 1] None (pfloat 1) minp PNone PNone PNone PNone kw = Ok out.
Proof.
  intros K AB. apply bls_defined; [exact isort_sorts|discriminate|exact AB|intro; apply ex_shrinks, K|intro; apply ex_accepts, K|exact ex_returns_good].
Qed.
Lemma ex_depth fuel minp kw out r : bls_estimator fuel isort ex_astropy [0; 1; 2] [1; 1; 1] None (pfloat 1) minp PNone PNone PNone PNone kw = Ok out ->
  dget "minimim_period" kw = None -> (minp = PNone /\ r = 0 \/ minp = pfloat r) -> pg_other (bo_bls out) = [("depth"%string, map Fin [r; r; r; r; r])].
Proof.
  intros E T M. destruct (bls_call _ _ _ _ _ _ _ _ _ _ _ _ _ _ E) as (t0 & ff & kw' & pg & _ & _ & [F _] & EP & ->). cbn [autopower ex_astropy] in EP. destruct (ex_keys kw'); [|discriminate]. apply Ok_inj in EP. subst pg.
  cbn [shift_transits pg_other ex_pg]. assert (NK := F "minimum_period"%string _ (or_introl eq_refl)). unfold num_kw. rewrite NK. unfold lower_kw. rewrite T. destruct M as [[-> ->]| ->]; reflexivity.
Qed.
Theorem bls_minimum_wrong : ~ (forall fuel argsort A x y yerr dur minp maxp obj meth ov kw v, sorts argsort -> dget "minimum_period" kw = Some v ->
  bls_estimator fuel argsort A x y yerr dur minp maxp obj meth ov kw = bls_estimator fuel argsort A x y yerr dur v maxp obj meth ov kw).
Proof.
  intro H. set (kw := [("minimum_period"%string, pfloat 7)]).
  assert (K : ex_known_kw kw) by (intros k Q; unfold kw in Q; rewrite dget_cons in Q; destruct (String.eqb_spec k "minimum_period"); [subst; cbn; tauto|contradiction]).
  assert (AB : absent ["objective"; "method"; "oversample"]%string kw) by (intros k I; destruct I as [<-|[<-|[<-|[]]]]; reflexivity).
  destruct (ex_run PNone kw K AB) as (N1 & o1 & H1). destruct (ex_run (pfloat 7) kw K AB) as (N2 & o2 & H2). set (f := (N1 + N2)%nat).
  assert (E1 := H1 f ltac:(unfold f; lia)). assert (E2 := H2 f ltac:(unfold f; lia)). rewrite (H f isort ex_astropy [0; 1; 2] [1; 1; 1] None (pfloat 1) PNone PNone PNone PNone PNone kw (pfloat 7) isort_sorts eq_refl) in E1.
  rewrite E2 in E1. apply Ok_inj in E1. subst o2. assert (D2 := ex_depth _ _ _ _ 7 E2 eq_refl (or_intror eq_refl)).
  assert (E1 := H1 f ltac:(unfold f; lia)). assert (D1 := ex_depth _ _ _ _ 0 E1 eq_refl (or_introl (conj eq_refl eq_refl))). rewrite D1 in D2. injection D2 as Q. lra.
Qed.
Theorem bls_info_wrong : ~ (forall fuel argsort A x y yerr dur minp maxp obj meth ov kw out info ps, sorts argsort -> returns_good A ->
  bls_estimator fuel argsort A x y yerr dur minp maxp obj meth ov kw = Ok out -> pg_power (bo_bls out) = map Fin ps -> bo_info out = Some info ->
  exists i v, strict_peak ps i /\ In ("power"%string, v) info /\ v = Fin (nth i ps 0)).
Proof.
  intro H. assert (K : ex_known_kw []) by (intros k Q; contradiction). assert (AB : absent ["objective"; "method"; "oversample"]%string []) by (intros k _; reflexivity).
  destruct (ex_run PNone [] K AB) as (N & out & HN). assert (E := HN N (le_n _)). destruct (bls_peak _ _ _ _ _ _ _ _ _ _ _ _ _ _ isort_sorts ex_returns_good E) as (t0 & pg & ps & _ & G & EB & BP).
  destruct (bls_call _ _ _ _ _ _ _ _ _ _ _ _ _ _ E) as (t0' & ff & kw' & pg' & _ & _ & _ & EP & EB'). cbn [autopower ex_astropy] in EP. destruct (ex_keys kw'); [|discriminate]. apply Ok_inj in EP. subst pg'.
  assert (PW : pg_power (bo_bls out) = map Fin [1; 3; 2; 1; 2]) by (rewrite EB'; reflexivity).
  assert (EPS : ps = [1; 3; 2; 1; 2]). { assert (Q : map Fin ps = map Fin [1; 3; 2; 1; 2]) by (rewrite <- PW, EB; symmetry; exact (gp_power _ _ G)). clear - Q. do 5 (destruct ps as [|? ps]; [discriminate|]). destruct ps; [|discriminate]. cbn in Q. congruence. } subst ps.
  assert (SP : forall i, strict_peak [1; 3; 2; 1; 2] i -> i = 1%nat). { intros i (I1 & I2 & P1 & P2). cbn [length] in I2. do 4 (destruct i as [|i]; [try lia; cbn in P1, P2; lra|]). lia. }
  destruct BP as [(_ & _ & NP)|(i & p & info & _ & EI & SPi & _ & _ & (_ & IA))].
  - apply (NP 1%nat). repeat split; cbn; try lia; lra.
  - apply SP in SPi. subst i. destruct (H _ _ _ _ _ _ _ _ _ _ _ _ _ _ _ _ isort_sorts ex_returns_good E PW EI) as (j & v & SPj & IV & EV). apply SP in SPj. subst j v. apply IA in IV. destruct IV as (l & IL & NL).
    unfold pg_arrays in IL. rewrite EB' in IL. cbn [shift_transits pg_period pg_power pg_transit_time pg_other ex_pg] in IL. destruct IL as [Q|[Q|[Q|[Q|[]]]]]; try discriminate Q. assert (Q2 := f_equal snd Q). cbn [snd] in Q2. subst l. cbn in NL. injection NL as Z. lra.
Qed.

Lemma shift_axis t0 pg : on_data_axis t0 pg (shift_transits t0 pg).
Proof.
  unfold on_data_axis, shift_transits. cbn [pg_period pg_power pg_transit_time pg_other pg_objective]. do 4 (split; [reflexivity|]). split; [apply map_length|].
  intros i t E. rewrite nth_error_map, E. reflexivity.
Qed.
Theorem bls_call_axis : forall fuel argsort A x y yerr dur minp maxp obj meth ov kw out, bls_estimator fuel argsort A x y yerr dur minp maxp obj meth ov kw = Ok out ->
  exists t0 ff kw' pg, midpoint x t0 /\
    factor_used A (centred x t0) y yerr dur (lower_kw kw minp) (upper_kw kw maxp) kw ff /\
    sent [("minimum_period"%string, lower_kw kw minp); ("maximum_period"%string, upper_kw kw maxp); ("frequency_factor"%string, ff);
          ("objective"%string, obj); ("method"%string, meth); ("oversample"%string, ov)] kw kw' /\
    autopower A (centred x t0) y yerr dur kw' = Ok pg /\ on_data_axis t0 pg (bo_bls out).
Proof.
  intros fuel argsort A x y yerr dur minp maxp obj meth ov kw out E. destruct (bls_call _ _ _ _ _ _ _ _ _ _ _ _ _ _ E) as (t0 & ff & kw' & pg & M & F & S & P & Q).
  exists t0, ff, kw', pg. rewrite Q. do 4 (split; [assumption|]). apply shift_axis.
Qed.
Theorem bls_peak_axis : forall fuel argsort A x y yerr dur minp maxp obj meth ov kw out, sorts argsort -> returns_good A ->
  bls_estimator fuel argsort A x y yerr dur minp maxp obj meth ov kw = Ok out ->
  exists t0 pg ps, midpoint x t0 /\ good_pgram pg ps /\ on_data_axis t0 pg (bo_bls out) /\ bls_peaks pg ps out.
Proof.
  intros fuel argsort A x y yerr dur minp maxp obj meth ov kw out SO G E. destruct (bls_peak _ _ _ _ _ _ _ _ _ _ _ _ _ _ SO G E) as (t0 & pg & ps & M & GP & Q & B).
  exists t0, pg, ps. do 2 (split; [assumption|]). split; [rewrite Q; apply shift_axis|exact B].
Qed.
