(** * lomb_scargle_estimator *)
From Coq Require Import Reals List Bool Arith ZArith String Lia Lra Sorted.
From Verif Require Import Num CoreOps Inst M_kwargs M_tensor M_dist M_ttv M_peaks M_bls M_lomb Spec_peaks Spec_bls Spec_lomb Spec_ecc L_real L_fl L_params3 L_dist1 L_ecc1 L_peaks2 L_bls Ex_peaks.
Import ListNotations.
Local Notation length := List.length.
Open Scope R_scope.

Lemma recip_fin p : p <> 0 -> recip p = Fin (1 / p).
Proof. intro H. unfold recip. apply fdiv_fin. exact H. Qed.
Lemma pow6_nonneg z : 0 <= z ^ 6.
Proof. replace (z ^ 6) with ((z ^ 3) ^ 2) by ring. apply pow2_ge_0. Qed.
Lemma den_pos z : 0 < sqrt (1 + z ^ 6).
Proof. apply sqrt_lt_R0. pose proof (pow6_nonneg z). lra. Qed.
Lemma highpass_fin p f : p <> 0 -> highpass (recip p) f = Fin (response (Some p) f).
Proof.
  intro P. rewrite recip_fin by exact P. unfold highpass, response. destruct (Req_EM_T f 0) as [->|F].
  - assert (Q : 1 / p <> 0) by (unfold Rdiv; rewrite Rmult_1_l; apply Rinv_neq_0_compat; exact P).
    assert (D : exists s, fdiv (Fin (1 / p)) (Fin 0) = Inf s). { cbn [fdiv]. unfold Reqb. destruct (Req_EM_T 0 0) as [_|N]; [|congruence]. destruct (Req_EM_T (1 / p) 0); [contradiction|]. eexists. reflexivity. }
    destruct D as [s ->]. unfold fpow6. destruct s; reflexivity.
  - rewrite (fdiv_fin (1 / p) f F). unfold fpow6. cbn [fmul fadd]. set (z := 1 / p / f).
    replace (z * z * (z * z * (z * z))) with (z ^ 6) by ring. rewrite fsqrt_fin by (pose proof (pow6_nonneg z); lra). apply fdiv_fin. pose proof (den_pos z). lra.
Qed.

Lemma weighted_fin fp n (fs ps : list R) : usable fp -> length fs = length ps -> (0 < n)%nat ->
  (match fp with
   | None => Ok (map (fun p => fdiv p (Fin (INR n))) (map Fin ps))
   | Some p => let filt := map (highpass (recip p)) fs in
       if Nat.eqb (length (map (fun p => fdiv p (Fin (INR n))) (map Fin ps))) (length filt)
       then Ok (map (fun pq => fmul (fst pq) (snd pq)) (combine (map (fun p => fdiv p (Fin (INR n))) (map Fin ps)) filt)) else Err ValueError
   end) = Ok (map Fin (weighted fp n fs ps)).
Proof.
  intros U L N. assert (NZ : INR n <> 0) by (apply not_0_INR; lia). destruct fp as [p|]; cbv zeta.
  - rewrite !map_length, L, Nat.eqb_refl. f_equal. revert ps L. induction fs as [|f fs IH]; destruct ps as [|q ps]; intro L; try discriminate; [reflexivity|].
    unfold weighted. cbn [map combine fst snd]. f_equal; [|apply IH; injection L; auto]. rewrite highpass_fin by exact U. rewrite (fdiv_fin q _ NZ). reflexivity.
  - f_equal. revert ps L. induction fs as [|f fs IH]; destruct ps as [|q ps]; intro L; try discriminate; [reflexivity|].
    unfold weighted. cbn [map combine fst snd]. f_equal; [|apply IH; injection L; auto]. rewrite (fdiv_fin q _ NZ). f_equal. cbn [response]. ring.
Qed.

Lemma sent_in (fixed kw kw' : dict) k : sent fixed kw kw' -> In k (map fst fixed) -> exists v, dget k kw' = Some v.
Proof. intros [F _] I. apply in_map_iff in I. destruct I as ((k' & v) & <- & I). exists v. apply F. exact I. Qed.
Definition two : dict := [("method"%string, PStr "fast"); ("normalization"%string, PStr "psd")].
Lemma sent_two fixed kw kw' : sent fixed kw kw' -> (forall k, In k (map fst two) -> ~ In k (map fst fixed)) -> sent (fixed ++ two) kw (two ++ kw').
Proof.
  intros [F O] D. assert (NE : forall k, ~ In k (map fst two) -> dget k two = None).
  { intros k N. unfold two in *. rewrite !dget_cons. cbn [map fst In] in N. destruct (String.eqb_spec k "method"); [subst; tauto|]. destruct (String.eqb_spec k "normalization"); [subst; tauto|]. reflexivity. }
  split.
  - intros k v I. rewrite dget_app. apply in_app_or in I. destruct I as [I|I].
    + rewrite NE; [apply F; exact I|]. intro Q. apply (D k Q). apply in_map_iff. exists (k, v). split; [reflexivity|exact I].
    + destruct I as [Q|[Q|[]]]; injection Q as <- <-; reflexivity.
  - intros k N. rewrite map_app in N. rewrite dget_app, NE; [apply O; intro; apply N, in_or_app; left; assumption|intro; apply N, in_or_app; right; assumption].
Qed.
Definition lim (minp maxp : option R) (kw : dict) : dict :=
  let kw := match minp with None => kw | Some p => dset "maximum_frequency" (pfl (recip p)) kw end in
  match maxp with None => kw | Some p => dset "minimum_frequency" (pfl (recip p)) kw end.
Lemma lim_sent minp maxp kw : usable minp -> usable maxp -> sent (bound_kw "maximum_frequency" minp ++ bound_kw "minimum_frequency" maxp) kw (lim minp maxp kw).
Proof.
  intros U V. unfold lim. cbv zeta.
  assert (A : sent (bound_kw "maximum_frequency" minp) kw (match minp with None => kw | Some p => dset "maximum_frequency" (pfl (recip p)) kw end)).
  { destruct minp as [p|]; [|apply sent_nil]. rewrite recip_fin by exact U. apply (sent_one []); [apply sent_nil|intros []]. }
  destruct maxp as [q|]; [|cbn [bound_kw]; rewrite app_nil_r; exact A]. rewrite (recip_fin q V). apply sent_one; [exact A|].
  destruct minp; cbn; [intros [|[]]; discriminate|intros []].
Qed.
Lemma lim_other minp maxp kw k : k <> "maximum_frequency"%string -> k <> "minimum_frequency"%string -> dget k (lim minp maxp kw) = dget k kw.
Proof. intros A B. unfold lim. cbv zeta. destruct minp, maxp; rewrite ?dget_set_other by assumption; reflexivity. Qed.
Lemma lim_keywords minp maxp kw : usable minp -> usable maxp -> sent (ls_keywords minp maxp) kw (two ++ lim minp maxp kw).
Proof.
  intros U V. unfold ls_keywords. rewrite app_assoc. apply sent_two; [apply lim_sent; assumption|].
  intros k [<-|[<-|[]]] I; destruct minp, maxp; cbn in I; repeat (destruct I as [I|I]; [discriminate|]); exact I.
Qed.
Definition rest (argsort : list fl -> list nat) (x : list R) (fp : option R) (mp : Z) (fr : list R * list fl) : res ls_out :=
  let '(freq, power) := fr in
  let power := map (fun p => fdiv p (Fin (INR (length x)))) power in
  power' <- match fp with
            | None => Ok power
            | Some p => let filt := map (highpass (recip p)) freq in
                        if Nat.eqb (length power) (length filt) then Ok (map (fun pq => fmul (fst pq) (snd pq)) (combine power filt)) else Err ValueError
            end ;;
  peaks <- find_peaks argsort freq power' mp ;;
  Ok {| lo_freq := freq; lo_power := power; lo_peaks := peaks |}.
Lemma ls_eq argsort AP x y yerr minp maxp fp mp kw : lomb_scargle_estimator argsort AP x y yerr minp maxp fp mp kw =
  (kw' <- dmerge two (lim minp maxp kw) ;; fr <- AP x y yerr kw' ;; rest argsort x fp mp fr).
Proof. reflexivity. Qed.
Lemma rest_out argsort x fp mp fs pw out : rest argsort x fp mp (fs, pw) = Ok out -> lo_freq out = fs /\ lo_power out = map (fun p => fdiv p (Fin (INR (length x)))) pw.
Proof.
  unfold rest. cbv zeta. match goal with |- context [match fp with None => ?a | Some p => _ end] => destruct (match fp with None => a | Some p => _ end) as [pw'|] end; [|discriminate].
  cbn [rbind]. destruct (find_peaks _ _ _ _); [|discriminate]. cbn [rbind]. intro E. apply Ok_inj in E. subst out. split; reflexivity.
Qed.
Lemma merge_inv kw kw' : dmerge two kw = Ok kw' -> kw' = two ++ kw.
Proof. unfold dmerge. destruct (existsb _ _); [discriminate|]. intro E. apply Ok_inj in E. symmetry. exact E. Qed.

Theorem ls_call : forall argsort AP x y yerr minp maxp fp mp kw out, usable minp -> usable maxp ->
  lomb_scargle_estimator argsort AP x y yerr minp maxp fp mp kw = Ok out ->
  exists kw' pw, sent (ls_keywords minp maxp) kw kw' /\ AP x y yerr kw' = Ok (lo_freq out, pw) /\
    lo_power out = map (fun p => fdiv p (Fin (INR (length x)))) pw.
Proof.
  intros argsort AP x y yerr minp maxp fp mp kw out U V E. rewrite ls_eq in E. destruct (dmerge two _) as [kw'|] eqn:EM; [|discriminate]. cbn [rbind] in E. apply merge_inv in EM. subst kw'.
  destruct (AP _ _ _ _) as [(fs & pw)|] eqn:EA; [|discriminate]. cbn [rbind] in E. apply rest_out in E. destruct E as [E1 E2]. exists (two ++ lim minp maxp kw), pw. split; [apply lim_keywords; assumption|]. rewrite E1. split; assumption.
Qed.
Theorem ls_unfiltered : forall argsort AP x y yerr minp maxp fp fp' mp mp' kw out out',
  lomb_scargle_estimator argsort AP x y yerr minp maxp fp mp kw = Ok out ->
  lomb_scargle_estimator argsort AP x y yerr minp maxp fp' mp' kw = Ok out' ->
  lo_freq out = lo_freq out' /\ lo_power out = lo_power out'.
Proof.
  intros argsort AP x y yerr minp maxp fp fp' mp mp' kw out out' E E'. rewrite ls_eq in E, E'. destruct (dmerge two _) as [kw'|]; [|discriminate]. cbn [rbind] in E, E'.
  destruct (AP _ _ _ _) as [(fs & pw)|]; [|discriminate]. cbn [rbind] in E, E'. apply rest_out in E. apply rest_out in E'. destruct E as [-> ->], E' as [-> ->]. split; reflexivity.
Qed.
Theorem ls_rejects : forall argsort AP x y yerr minp maxp fp mp kw,
  dget "method" kw <> None \/ dget "normalization" kw <> None ->
  lomb_scargle_estimator argsort AP x y yerr minp maxp fp mp kw = Err TypeErr.
Proof.
  intros argsort AP x y yerr minp maxp fp mp kw H. rewrite ls_eq. destruct H as [H|H].
  - rewrite (dmerge_err two _ "method"%string); [reflexivity|left; reflexivity|]. rewrite lim_other by discriminate. exact H.
  - rewrite (dmerge_err two _ "normalization"%string); [reflexivity|right; left; reflexivity|]. rewrite lim_other by discriminate. exact H.
Qed.
Theorem ls_peaks : forall argsort (AP : ls_autopower) x y yerr minp maxp fp mp kw, sorts argsort -> usable minp -> usable maxp -> usable fp -> x <> [] ->
  absent ["method"; "normalization"]%string kw ->
  (forall kw', sent (ls_keywords minp maxp) kw kw' -> exists fs ps, AP x y yerr kw' = Ok (fs, map Fin ps) /\ length fs = length ps /\
     strictly_monotone fs /\ List.Forall (fun f => 0 <= f) fs) ->
  exists kw' fs ps is pks, sent (ls_keywords minp maxp) kw kw' /\ AP x y yerr kw' = Ok (fs, map Fin ps) /\
    chosen (weighted fp (length x) fs ps) (Z.to_nat (Z.max 1 mp)) is /\ Forall2 (describes fs (weighted fp (length x) fs ps)) is pks /\
    lomb_scargle_estimator argsort AP x y yerr minp maxp fp mp kw =
      let out p := Ok {| lo_freq := fs; lo_power := map (fun p => Fin (p / INR (length x))) ps; lo_peaks := p |} in
      if Z.eqb mp 0 then match pks with [] => Err ValueError | p :: _ => out (OnePeak p) end else out (PeakList pks).
Proof.
  intros argsort AP x y yerr minp maxp fp mp kw S U V W NX AB H. assert (K := lim_keywords minp maxp kw U V). destruct (H _ K) as (fs & ps & E & L & M & P).
  assert (LW : length fs = length (weighted fp (length x) fs ps)) by (unfold weighted; rewrite map_length, combine_length; lia).
  assert (LX : (0 < length x)%nat) by (destruct x; [congruence|cbn; lia]). assert (NZ : INR (length x) <> 0) by (apply not_0_INR; lia).
  destruct (find_peaks_law argsort fs (weighted fp (length x) fs ps) mp S LW M P) as (is & pks & C & D & F).
  exists (two ++ lim minp maxp kw), fs, ps, is, pks. do 4 (split; [assumption|]). rewrite ls_eq. rewrite dmerge_ok.
  2: { intros k I. rewrite lim_other; [apply AB; exact I| |]; intros ->; cbn in I; repeat (destruct I as [I|I]; [discriminate|]); exact I. }
  cbn [rbind]. rewrite E. cbn [rbind]. unfold rest. cbv zeta. pose proof (weighted_fin fp (length x) fs ps W L LX) as Q. cbv zeta in Q. rewrite Q. cbn [rbind]. rewrite F.
  replace (map (fun p => fdiv p (Fin (INR (length x)))) (map Fin ps)) with (map (fun p => Fin (p / INR (length x))) ps).
  2: { rewrite map_map. apply map_ext. intro p. symmetry. apply fdiv_fin. exact NZ. }
  destruct (Z.eqb mp 0); [destruct pks|]; reflexivity.
Qed.
Lemma pow6_lt a b : 0 <= a < b -> a ^ 6 < b ^ 6.
Proof. intros [A B]. replace (a ^ 6) with ((a ^ 3) * (a ^ 3)) by ring. replace (b ^ 6) with ((b ^ 3) * (b ^ 3)) by ring.
  assert (a ^ 3 < b ^ 3) by (cbn; rewrite !Rmult_1_r; apply Rmult_le_0_lt_compat; [lra|apply Rmult_le_pos; lra|lra|apply Rmult_le_0_lt_compat; lra]).
  assert (0 <= a ^ 3) by (apply pow_le; lra). apply Rmult_le_0_lt_compat; lra.
Qed.
Lemma pow6_abs z : z ^ 6 = Rabs z ^ 6.
Proof. replace (z ^ 6) with (Rsqr z ^ 3) by (unfold Rsqr; ring). rewrite (Rsqr_abs z). unfold Rsqr. ring. Qed.
Theorem response_law : forall p f, p <> 0 -> 0 < f ->
  0 < response (Some p) f < 1 /\ (forall g, f < g -> response (Some p) f < response (Some p) g) /\
  (Rabs p * f = 1 -> response (Some p) f = 1 / sqrt 2) /\ response (Some p) 0 = 0 /\ response None f = 1.
Proof.
  intros p f P F. assert (G : forall g, 0 < g -> response (Some p) g = 1 / sqrt (1 + (1 / p / g) ^ 6)) by (intros g H; unfold response; destruct (Req_EM_T g 0); [lra|reflexivity]).
  assert (AP : 0 < Rabs p) by (apply Rabs_pos_lt; exact P).
  assert (AQ : forall g, 0 < g -> Rabs (1 / p / g) = / (Rabs p * g)).
  { intros g H. unfold Rdiv. rewrite Rmult_1_l, Rabs_mult, !Rabs_inv, (Rabs_pos_eq g) by lra. rewrite Rinv_mult. reflexivity. }
  assert (X : forall g, 0 < g -> 0 < (1 / p / g) ^ 6). { intros g H. rewrite pow6_abs, AQ by exact H. apply pow_lt, Rinv_0_lt_compat, Rmult_lt_0_compat; assumption. }
  split; [|split; [|split; [|split]]].
  - rewrite G by exact F. assert (S1 : 1 < sqrt (1 + (1 / p / f) ^ 6)). { rewrite <- sqrt_1 at 1. apply sqrt_lt_1; [lra|pose proof (X f F); lra|pose proof (X f F); lra]. }
    split; [apply Rdiv_lt_0_compat; lra|]. apply (Rmult_lt_reg_r (sqrt (1 + (1 / p / f) ^ 6))); [lra|]. unfold Rdiv at 1. rewrite Rmult_assoc, Rinv_l by lra. lra.
  - intros g H. rewrite !G by lra. unfold Rdiv at 1 4. rewrite !Rmult_1_l. apply Rinv_lt_contravar; [apply Rmult_lt_0_compat; apply den_pos|].
    apply sqrt_lt_1; [pose proof (pow6_nonneg (1 / p / g)); lra|pose proof (pow6_nonneg (1 / p / f)); lra|]. rewrite (pow6_abs (1 / p / g)), (pow6_abs (1 / p / f)), !AQ by lra.
    apply Rplus_lt_compat_l, pow6_lt. split; [left; apply Rinv_0_lt_compat, Rmult_lt_0_compat; lra|]. apply Rinv_lt_contravar; [repeat apply Rmult_lt_0_compat; lra|]. apply Rmult_lt_compat_l; lra.
  - intro H. rewrite G by exact F. rewrite pow6_abs, AQ, H, Rinv_1, pow1 by exact F. reflexivity.
  - unfold response. destruct (Req_EM_T 0 0); [reflexivity|congruence].
  - reflexivity.
Qed.
