(** * Exactness and optimality of the semi-amplitude estimate *)
From Coq Require Import Reals List Bool Arith ZArith Lia Lra.
From Verif Require Import Num CoreLin L_lin M_units M_ttv M_rv Spec_rv L_rv1 L_rv2.
Import ListNotations.
Open Scope R_scope.

Lemma transit_basis t p t0 : p <> 0 -> cos (2 * PI * (t - (t0 - 0.25 * p)) / p) = - sin (2 * PI * (t - t0) / p).
Proof.
  intro Hp. replace 0.25 with (1 / 4) by lra. replace (2 * PI * (t - (t0 - 1 / 4 * p)) / p) with (PI / 2 + 2 * PI * (t - t0) / p) by (field; exact Hp).
  rewrite cos_plus, cos_PI2, sin_PI2. ring.
Qed.
Lemma transit_row P : forall T0 Ks c t, List.Forall (fun p => p <> 0) P -> (length P <= length T0)%nat -> length Ks = length P ->
  dot (est_row P (Some T0) t) (Ks ++ [c]) = transit_model P T0 Ks c t.
Proof.
  induction P as [|p P IH]; intros [|t0 T0] [|K Ks] c t F L1 L2; try discriminate; try (cbn in L1; lia); cbn [transit_model].
  - cbn. ring.
  - cbn. ring.
  - inversion F; subst. rewrite <- (IH T0 Ks c t) by (assumption || (cbn in L1, L2; lia)). unfold est_row. cbn [combine map app dot fst snd]. rewrite transit_basis by assumption.
    unfold transit_signal. ring.
Qed.
Fixpoint weave (As Bs : list R) : list R := match As, Bs with A :: As, B :: Bs => A :: B :: weave As Bs | _, _ => [] end.
Lemma weave_length As : forall Bs, length As = length Bs -> length (weave As Bs) = (2 * length As)%nat.
Proof. induction As as [|A As IH]; intros [|B Bs] L; try discriminate; [reflexivity|]. cbn in *. rewrite IH by lia. lia. Qed.
Lemma weave_ex n : forall w, length w = (2 * n)%nat -> exists As Bs, length As = n /\ length Bs = n /\ w = weave As Bs.
Proof.
  induction n as [|n IH]; intros w L.
  - destruct w; [|discriminate]. exists [], []. auto.
  - destruct w as [|a [|b w]]; try (cbn in L; lia). destruct (IH w) as (As & Bs & H1 & H2 & ->); [cbn in L; lia|]. exists (a :: As), (b :: Bs). cbn. auto.
Qed.
Lemma weave_zero n : forall As Bs, length As = n -> length Bs = n -> weave As Bs = zeros (2 * n) -> (forall A, In A As -> A = 0) /\ forall B, In B Bs -> B = 0.
Proof.
  induction n as [|n IH]; intros As Bs L1 L2 E.
  - destruct As, Bs; try discriminate. split; intros ? [].
  - destruct As as [|A As], Bs as [|B Bs]; try discriminate. cbn in L1, L2. replace (2 * S n)%nat with (S (S (2 * n))) in E by lia. cbn in E. injection E as E1 E2 E3.
    destruct (IH As Bs) as [H1 H2]; try lia; [exact E3|]. split; intros z [<-|I]; auto.
Qed.
Lemma zero_weave n : forall As Bs, length As = n -> length Bs = n -> (forall A, In A As -> A = 0) -> (forall B, In B Bs -> B = 0) -> weave As Bs = zeros (2 * n).
Proof.
  induction n as [|n IH]; intros As Bs L1 L2 H1 H2.
  - destruct As, Bs; try discriminate. reflexivity.
  - destruct As as [|A As], Bs as [|B Bs]; try discriminate. cbn in L1, L2. replace (2 * S n)%nat with (S (S (2 * n))) by lia. cbn. rewrite (H1 A), (H2 B) by (left; reflexivity). do 2 f_equal.
    apply IH; try lia; intros; [apply H1|apply H2]; right; assumption.
Qed.
Lemma phase_row P : forall As Bs c t, length As = length P -> length Bs = length P ->
  dot (est_row P None t) (weave As Bs ++ [c]) = phase_model P As Bs c t.
Proof.
  induction P as [|p P IH]; intros [|A As] [|B Bs] c t L1 L2; try discriminate; cbn [phase_model].
  - cbn. ring.
  - rewrite <- (IH As Bs c t) by (cbn in L1, L2; lia). unfold est_row. cbn [map concat app dot weave]. ring.
Qed.
Lemma amplitudes_weave As : forall Bs, length As = length Bs -> amplitudes (weave As Bs) = amplitude_list As Bs.
Proof.
  induction As as [|A As IH]; intros [|B Bs] L; try discriminate; [reflexivity|]. cbn [weave amplitudes]. rewrite IH by (cbn in L; lia). unfold amplitude_list. cbn [combine map fst snd]. f_equal. f_equal. ring.
Qed.
Lemma zeros_app n (w : list R) c : w ++ [c] = zeros (S n) <-> w = zeros n /\ c = 0.
Proof.
  unfold zeros. replace (repeat 0 (S n)) with (repeat 0 n ++ [0]) by (rewrite <- repeat_cons; reflexivity). split.
  - intro E. apply app_inj_tail in E. exact E.
  - intros [-> ->]. reflexivity.
Qed.
Lemma zeros_in n (w : list R) : length w = n -> (forall K, In K w -> K = 0) -> w = zeros n.
Proof. intros <- H. unfold zeros. apply Forall_eq_repeat. apply Forall_forall. intros z I. symmetry. apply H. exact I. Qed.
Lemma in_zeros n (w : list R) : w = zeros n -> forall K, In K w -> K = 0.
Proof. intros -> K I. apply repeat_spec in I. exact I. Qed.
Lemma split_last n (w : list R) : length w = S n -> exists u c, w = u ++ [c] /\ length u = n.
Proof. intro L. destruct (@exists_last _ w) as (u & c & ->); [intros ->; discriminate|]. exists u, c. split; [reflexivity|]. rewrite app_length in L. cbn in L. lia. Qed.

Section T.
Variables (k : consts) (periods x y : qty (list R)) (yerr : option (qty (list R))) (P ts vs sigma : list R).
Hypothesis OK : consts_ok k.
Hypothesis MP : measures periods (u_day k) P.
Hypothesis MD : rv_data k x y yerr ts vs sigma.
Let SL : length sigma = length ts := sigma_length _ _ _ _ _ _ _ MD.
Let VL : length vs = length ts := rv_len _ _ _ _ _ _ _ MD.

Section TRANSIT.
Variables (t0s : qty (list R)) (T0 : list R).
Hypothesis MT : measures t0s (u_day k) T0.
Hypothesis NZ : List.Forall (fun p => p <> 0) P.
Hypothesis LT : (length P <= length T0)%nat.
Let obs := est_obs P ts vs sigma (Some T0).
Let p := est_p P (Some T0).
Let W o : In o obs -> length (orow o) = p.
Proof using LT. intro I. exact (est_width P ts vs sigma (Some T0) o LT I). Qed.
Let V o : In o obs -> 0 < owt o.
Proof using MD. exact (est_weight k x y yerr P ts vs sigma (Some T0) MD o). Qed.
Lemma transit_kernel Ks c : length Ks = length P -> (forall o, In o obs -> dot (orow o) (Ks ++ [c]) = 0) <-> (forall t, In t ts -> transit_model P T0 Ks c t = 0).
Proof using NZ LT SL VL.
  intro LK. split; intros H.
  - intros t I. destruct (obs_all (est_row P (Some T0)) ts sigma vs t SL VL I) as (o & Io & E). rewrite <- (transit_row P T0 Ks c t NZ LT LK), <- E. apply H. exact Io.
  - intros o I. destruct (obs_in _ _ _ _ _ I) as (t & s & v & It & _ & -> & _). unfold orow. cbn [fst]. rewrite (transit_row P T0 Ks c t NZ LT LK). apply H. exact It.
Qed.
Lemma transit_inj : transit_identifiable P T0 ts -> forall w, length w = p -> (forall o, In o obs -> dot (orow o) w = 0) -> w = zeros p.
Proof using NZ LT SL VL.
  intros J w LW H. destruct (split_last (length P) w LW) as (Ks & c & -> & LK). apply zeros_app. destruct (J Ks c LK) as [HC HK]; [apply transit_kernel; [exact LK|exact H]|].
  split; [apply zeros_in; assumption|exact HC].
Qed.
Lemma transit_form : estimate_semi_amplitude k periods x y yerr (Some t0s) = rmap (fun w => removelast w) (linsolve (gram obs p) (grhs obs p)).
Proof using OK MP MD MT LT. exact (est_form k periods x y yerr (Some t0s) P ts vs sigma (Some T0) OK MP MT MD LT). Qed.
Lemma transit_exact Ks c : length Ks = length P -> transit_identifiable P T0 ts -> vs = map (transit_model P T0 Ks c) ts ->
  estimate_semi_amplitude k periods x y yerr (Some t0s) = Ok Ks.
Proof using OK MP MD MT LT NZ SL VL.
  intros LK J EV. rewrite transit_form. rewrite (ls_exact obs p W V (Ks ++ [c])).
  - cbn [rmap]. rewrite removelast_last. reflexivity.
  - rewrite app_length, LK. cbn. unfold p, est_p. lia.
  - intros o I. destruct (obs_in _ _ _ _ _ I) as (t & s & v & It & _ & -> & IC). unfold orow, oy. cbn [fst snd]. rewrite (transit_row P T0 Ks c t NZ LT LK).
    rewrite EV in IC. clear -IC. induction ts as [|u r IH]; [contradiction|]. cbn in IC. destruct IC as [E|IC]; [injection E as -> <-; reflexivity|apply IH; exact IC].
  - exact (transit_inj J).
Qed.
Lemma transit_ls K : estimate_semi_amplitude k periods x y yerr (Some t0s) = Ok K ->
  length K = length P /\ exists c, forall K' c', length K' = length P ->
    chi2 (transit_model P T0 K c) ts vs sigma <= chi2 (transit_model P T0 K' c') ts vs sigma.
Proof using OK MP MD MT LT NZ SL VL.
  rewrite transit_form. destruct (linsolve _ _) as [w|] eqn:E; [|discriminate]. intro Q. injection Q as <-.
  destruct (ls_min obs p W V w E) as [LW M]. destruct (split_last (length P) w LW) as (Ks & c & -> & LK). rewrite removelast_last. split; [exact LK|]. exists c. intros K' c' LK'.
  assert (H := M (K' ++ [c'])). rewrite app_length, LK' in H. cbn [length] in H. specialize (H ltac:(unfold p, est_p; lia)).
  unfold obs in H. rewrite (est_loss k x y yerr P ts vs sigma (Some T0) MD (transit_model P T0 Ks c)) in H by (intros; symmetry; apply transit_row; assumption).
  rewrite (est_loss k x y yerr P ts vs sigma (Some T0) MD (transit_model P T0 K' c')) in H by (intros; symmetry; apply transit_row; assumption). exact H.
Qed.
Lemma transit_defined : match estimate_semi_amplitude k periods x y yerr (Some t0s) with
  | Ok _ => transit_identifiable P T0 ts | Err e => e = LinAlgErr /\ ~ transit_identifiable P T0 ts end.
Proof using OK MP MD MT LT NZ SL VL.
  rewrite transit_form. destruct (linsolve _ _) as [w|e] eqn:E; cbn [rmap].
  - intros Ks c LK H. assert (Z : Ks ++ [c] = zeros p).
    { assert (GL := gram_length obs p). rewrite <- GL. apply (linsolve_inj _ _ _ E); [rewrite GL, app_length, LK; cbn; unfold p, est_p; lia|].
      apply kernel_gram; [exact W|]. apply transit_kernel; assumption. }
    apply zeros_app in Z. destruct Z as [Z1 Z2]. split; [exact Z2|exact (in_zeros _ _ Z1)].
  - split.
    + revert E. unfold linsolve. destruct (_ && _); [destruct (gauss _ _)|]; congruence.
    + intro J. destruct (ls_total obs p W V (transit_inj J)) as (w & Q). congruence.
Qed.
End TRANSIT.

Section PHASE.
Let obs := est_obs P ts vs sigma None.
Let p := est_p P None.
Let W o : In o obs -> length (orow o) = p.
Proof using. intro I. exact (est_width P ts vs sigma None o Logic.I I). Qed.
Let V o : In o obs -> 0 < owt o.
Proof using MD. exact (est_weight k x y yerr P ts vs sigma None MD o). Qed.
Lemma phase_kernel As Bs c : length As = length P -> length Bs = length P ->
  (forall o, In o obs -> dot (orow o) (weave As Bs ++ [c]) = 0) <-> (forall t, In t ts -> phase_model P As Bs c t = 0).
Proof using SL VL.
  intros LA LB. split; intros H.
  - intros t I. destruct (obs_all (est_row P None) ts sigma vs t SL VL I) as (o & Io & E). rewrite <- (phase_row P As Bs c t LA LB), <- E. apply H. exact Io.
  - intros o I. destruct (obs_in _ _ _ _ _ I) as (t & s & v & It & _ & -> & _). unfold orow. cbn [fst]. rewrite (phase_row P As Bs c t LA LB). apply H. exact It.
Qed.
Lemma phase_inj : phase_identifiable P ts -> forall w, length w = p -> (forall o, In o obs -> dot (orow o) w = 0) -> w = zeros p.
Proof using SL VL.
  intros J w LW H. destruct (split_last (2 * length P) w LW) as (u & c & -> & LU). destruct (weave_ex _ _ LU) as (As & Bs & LA & LB & ->).
  apply zeros_app. destruct (J As Bs c LA LB) as (HC & HA & HB); [apply phase_kernel; assumption|]. split; [apply zero_weave; assumption|exact HC].
Qed.
Lemma phase_form : estimate_semi_amplitude k periods x y yerr None = rmap (fun w => amplitudes (removelast w)) (linsolve (gram obs p) (grhs obs p)).
Proof using OK MP MD. exact (est_form k periods x y yerr None P ts vs sigma None OK MP Logic.I MD Logic.I). Qed.
Lemma phase_exact As Bs c : length As = length P -> length Bs = length P -> phase_identifiable P ts -> vs = map (phase_model P As Bs c) ts ->
  estimate_semi_amplitude k periods x y yerr None = Ok (amplitude_list As Bs).
Proof using OK MP MD SL VL.
  intros LA LB J EV. rewrite phase_form. rewrite (ls_exact obs p W V (weave As Bs ++ [c])).
  - cbn [rmap]. rewrite removelast_last, amplitudes_weave by lia. reflexivity.
  - rewrite app_length, weave_length, LA by lia. cbn. unfold p, est_p. lia.
  - intros o I. destruct (obs_in _ _ _ _ _ I) as (t & s & v & It & _ & -> & IC). unfold orow, oy. cbn [fst snd]. rewrite (phase_row P As Bs c t LA LB).
    rewrite EV in IC. clear -IC. induction ts as [|u r IH]; [contradiction|]. cbn in IC. destruct IC as [E|IC]; [injection E as -> <-; reflexivity|apply IH; exact IC].
  - exact (phase_inj J).
Qed.
Lemma phase_ls K : estimate_semi_amplitude k periods x y yerr None = Ok K ->
  exists As Bs c, length As = length P /\ length Bs = length P /\ K = amplitude_list As Bs /\ forall As' Bs' c', length As' = length P -> length Bs' = length P ->
    chi2 (phase_model P As Bs c) ts vs sigma <= chi2 (phase_model P As' Bs' c') ts vs sigma.
Proof using OK MP MD SL VL.
  rewrite phase_form. destruct (linsolve _ _) as [w|] eqn:E; [|discriminate]. intro Q. injection Q as <-.
  destruct (ls_min obs p W V w E) as [LW M]. destruct (split_last (2 * length P) w LW) as (u & c & -> & LU). destruct (weave_ex _ _ LU) as (As & Bs & LA & LB & ->).
  rewrite removelast_last. exists As, Bs, c. split; [exact LA|]. split; [exact LB|]. split; [apply amplitudes_weave; lia|]. intros As' Bs' c' LA' LB'.
  assert (H := M (weave As' Bs' ++ [c'])). rewrite app_length, weave_length, LA' in H by lia. cbn [length] in H. specialize (H ltac:(unfold p, est_p; lia)).
  unfold obs in H. rewrite (est_loss k x y yerr P ts vs sigma None MD (phase_model P As Bs c)) in H by (intros; symmetry; apply phase_row; assumption).
  rewrite (est_loss k x y yerr P ts vs sigma None MD (phase_model P As' Bs' c')) in H by (intros; symmetry; apply phase_row; assumption). exact H.
Qed.
Lemma phase_defined : match estimate_semi_amplitude k periods x y yerr None with
  | Ok _ => phase_identifiable P ts | Err e => e = LinAlgErr /\ ~ phase_identifiable P ts end.
Proof using OK MP MD SL VL.
  rewrite phase_form. destruct (linsolve _ _) as [w|e] eqn:E; cbn [rmap].
  - intros As Bs c LA LB H. assert (Z : weave As Bs ++ [c] = zeros p).
    { assert (GL := gram_length obs p). rewrite <- GL. apply (linsolve_inj _ _ _ E); [rewrite GL, app_length, weave_length, LA by lia; cbn; unfold p, est_p; lia|].
      apply kernel_gram; [exact W|]. apply phase_kernel; assumption. }
    apply zeros_app in Z. destruct Z as [Z1 Z2]. split; [exact Z2|exact (weave_zero _ _ _ LA LB Z1)].
  - split.
    + revert E. unfold linsolve. destruct (_ && _); [destruct (gauss _ _)|]; congruence.
    + intro J. destruct (ls_total obs p W V (phase_inj J)) as (w & Q). congruence.
Qed.
End PHASE.
End T.

Lemma harmonic_phase P : forall Ks phis c t, length Ks = length P -> length phis = length P ->
  harmonic_model P Ks phis c t = phase_model P (map (fun z => - fst z * sin (snd z)) (combine Ks phis)) (map (fun z => fst z * cos (snd z)) (combine Ks phis)) c t.
Proof.
  induction P as [|p P IH]; intros [|K Ks] [|phi phis] c t L1 L2; try discriminate; [reflexivity|]. cbn [harmonic_model combine map phase_model fst snd]. rewrite <- IH by (cbn in *; lia).
  rewrite cos_plus. ring.
Qed.
Lemma harmonic_amplitudes : forall Ks phis, length Ks = length phis -> List.Forall (fun K => 0 <= K) Ks ->
  amplitude_list (map (fun z => - fst z * sin (snd z)) (combine Ks phis)) (map (fun z => fst z * cos (snd z)) (combine Ks phis)) = Ks.
Proof.
  induction Ks as [|K Ks IH]; intros [|phi phis] L F; try discriminate; [reflexivity|]. inversion F; subst. unfold amplitude_list in *. cbn [combine map fst snd]. rewrite IH by (assumption || (cbn in L; lia)). f_equal.
  replace ((- K * sin phi) ^ 2 + (K * cos phi) ^ 2) with (K ^ 2 * (Rsqr (sin phi) + Rsqr (cos phi))) by (unfold Rsqr; ring). rewrite sin2_cos2, Rmult_1_r. apply sqrt_pow2. assumption.
Qed.
