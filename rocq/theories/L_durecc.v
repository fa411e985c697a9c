(** * duration_to_eccentricity *)
From Coq Require Import Reals List Bool Arith String Lia Lra.
From Coquelicot Require Import Coquelicot.
From Verif Require Import Num Inst M_units M_tensor M_durecc Spec_durecc Ex_durecc L_fl L_params3.
Import ListNotations.
Local Notation length := List.length.
Open Scope R_scope.

Section roots.
  Variables s U : R.
  Hypothesis S1 : -1 <= s <= 1.
  Hypothesis U0 : 0 < U.
  Definition q := 1 + (s * U) ^ 2.
  Definition D := 1 + (s ^ 2 - 1) * U ^ 2.
  Definition er (sg : R) := (- s * U ^ 2 + sg * sqrt D) / q.
  Definition eqn (e : R) := U ^ 2 * (1 + e * s) ^ 2 = 1 - e ^ 2.
  Lemma q_pos : 0 < q. Proof. unfold q. pose proof (pow2_ge_0 (s * U)). lra. Qed.
  Lemma eqn_square e : eqn e <-> (q * e + U ^ 2 * s) ^ 2 = D.
  Proof.
    unfold eqn. pose proof q_pos as Q. assert (I : (q * e + U ^ 2 * s) ^ 2 - D = q * (U ^ 2 * (1 + e * s) ^ 2 - (1 - e ^ 2))) by (unfold q, D; ring). split; intro H.
    - assert (U ^ 2 * (1 + e * s) ^ 2 - (1 - e ^ 2) = 0) by lra. rewrite H0, Rmult_0_r in I. lra.
    - assert (Z : q * (U ^ 2 * (1 + e * s) ^ 2 - (1 - e ^ 2)) = 0) by lra. apply Rmult_integral in Z. destruct Z; lra.
  Qed.
  Lemma eqn_D e : eqn e -> 0 <= D. Proof. intro H. apply eqn_square in H. rewrite <- H. apply pow2_ge_0. Qed.
  Lemma er_lin sg : q * er sg + U ^ 2 * s = sg * sqrt D.
  Proof. unfold er. pose proof q_pos. field. lra. Qed.
  Lemma er_root sg : 0 <= D -> sg = -1 \/ sg = 1 -> eqn (er sg).
  Proof. intros H G. apply eqn_square. rewrite er_lin. rewrite Rpow_mult_distr, pow2_sqrt by exact H. destruct G as [-> | ->]; ring. Qed.
  Lemma roots_all e : eqn e -> e = er (-1) \/ e = er 1.
  Proof.
    intro H. pose proof (eqn_D e H) as HD. apply eqn_square in H. pose proof q_pos as Q. rewrite <- (pow2_sqrt D HD) in H.
    assert (Z : (q * e + U ^ 2 * s - sqrt D) * (q * e + U ^ 2 * s + sqrt D) = 0) by (replace ((q * e + U ^ 2 * s - sqrt D) * (q * e + U ^ 2 * s + sqrt D)) with ((q * e + U ^ 2 * s) ^ 2 - sqrt D ^ 2) by ring; lra).
    apply Rmult_integral in Z. destruct Z as [Z|Z]; [right|left]; unfold er; apply (Rmult_eq_reg_r q); try lra; unfold Rdiv; rewrite Rmult_assoc, Rinv_l by lra; lra.
  Qed.
  Lemma er_le : er (-1) <= er 1.
  Proof. unfold er, Rdiv. apply Rmult_le_compat_r; [left; apply Rinv_0_lt_compat, q_pos|]. pose proof (sqrt_pos D). lra. Qed.
  Lemma er_neq : 0 < D -> er (-1) < er 1.
  Proof. intro H. unfold er, Rdiv. apply Rmult_lt_compat_r; [apply Rinv_0_lt_compat, q_pos|]. pose proof (sqrt_lt_R0 D H). lra. Qed.
  (** range *)
  Definition cond : Prop := if Rlt_dec s 0 then U * sqrt (1 - s ^ 2) < 1 else U < 1.
  Lemma cond_D : -1 < s -> cond -> 0 < D.
  Proof.
    unfold cond, D. intros S2 C. destruct (Rlt_dec s 0) as [N|P].
    - assert (P : 0 <= 1 - s ^ 2) by nra. assert (Q : 0 <= U * sqrt (1 - s ^ 2)) by (apply Rmult_le_pos; [lra|apply sqrt_pos]).
      assert (X : (U * sqrt (1 - s ^ 2)) ^ 2 < 1) by nra. rewrite Rpow_mult_distr, pow2_sqrt in X by exact P. lra.
    - assert (U ^ 2 < 1) by nra. assert (0 <= s ^ 2 * U ^ 2) by (apply Rmult_le_pos; apply pow2_ge_0). nra.
  Qed.
  Lemma sum_ne e : -1 < e < 1 -> 0 < D -> eqn e -> e + s <> 0.
  Proof.
    intros B P H Z. assert (e = - s) by lra. subst e. unfold eqn in H. unfold D in P. assert (X : (1 - s ^ 2) * (U ^ 2 * (1 - s ^ 2) - 1) = 0) by (replace ((1 - s ^ 2) * (U ^ 2 * (1 - s ^ 2) - 1)) with (U ^ 2 * (1 + - s * s) ^ 2 - (1 - (- s) ^ 2)) by ring; lra).
    apply Rmult_integral in X. destruct X; nra.
  Qed.
  Lemma cond_range : -1 < s -> (cond <-> exists e, 0 < e < 1 /\ eqn e /\ e + s <> 0).
  Proof.
    intro S2. split.
    - intro C. pose proof (cond_D S2 C) as P. exists (er 1). assert (E : eqn (er 1)) by (apply er_root; [lra|right; reflexivity]). assert (G : 0 < er 1 < 1); [|split; [exact G|split; [exact E|apply sum_ne; [lra|assumption|exact E]]]].
      pose proof q_pos as Q. pose proof (er_lin 1) as L. rewrite Rmult_1_l in L. pose proof (sqrt_lt_R0 D P) as SD. pose proof (pow2_sqrt D (Rlt_le _ _ P)) as SQ.
      assert (UU : 0 < U ^ 2) by nra. unfold cond in C. split.
      + assert (0 < sqrt D - U ^ 2 * s). { destruct (Rlt_dec s 0) as [N|N]; [assert (0 < U ^ 2 * - s) by (apply Rmult_lt_0_compat; lra); lra|].
          destruct (Rle_lt_dec (sqrt D) (U ^ 2 * s)) as [B|B]; [exfalso|lra]. assert (X : sqrt D ^ 2 <= (U ^ 2 * s) ^ 2) by (apply pow_incr; lra). rewrite SQ in X. unfold D in X. assert (Y : 0 < (1 - U ^ 2) * (1 + s ^ 2 * U ^ 2)) by (apply Rmult_lt_0_compat; nra). nra. }
        apply (Rmult_lt_reg_l q); [exact Q|]. lra.
      + apply (Rmult_lt_reg_l q); [exact Q|]. rewrite Rmult_1_r. destruct (Rle_lt_dec q (q * er 1)) as [B|B]; [exfalso|exact B].
        assert (B2 : q + U ^ 2 * s <= sqrt D) by lra. assert (F : (q + U ^ 2 * s) ^ 2 - D = q * (U ^ 2 * (1 + s) ^ 2)) by (unfold q, D; ring).
        assert (F2 : 0 < q * (U ^ 2 * (1 + s) ^ 2)) by (apply Rmult_lt_0_compat; [exact Q|apply Rmult_lt_0_compat; [exact UU|apply pow_lt; lra]]).
        assert (V : 0 < q + U ^ 2 * s). { unfold q. destruct (Rlt_dec s 0) as [N|N]; [|assert (0 <= U ^ 2 * s) by (apply Rmult_le_pos; lra); pose proof (pow2_ge_0 (s * U)); lra].
          unfold D in P. assert (0 < 1 - s) by lra. assert (X : 0 < 1 + U ^ 2 * (s * (s + 1))). { assert (U ^ 2 * (1 - s ^ 2) < 1) by lra. assert (s * (s + 1) > - (1 - s ^ 2)) by nra. nra. } nra. }
        assert (X : (q + U ^ 2 * s) ^ 2 <= sqrt D ^ 2) by (apply pow_incr; lra). rewrite SQ in X. lra.
    - intros (e & E0 & E & NE). unfold cond. destruct (Rlt_dec s 0) as [N|N].
      + pose proof (eqn_D e E) as HD. assert (DP : 0 < D). { destruct HD as [HD|HD]; [exact HD|]. exfalso. apply NE. apply eqn_square in E. rewrite <- HD in E. assert (L : q * e + U ^ 2 * s = 0) by (destruct (Req_dec (q * e + U ^ 2 * s) 0) as [Z|Z]; [exact Z|]; exfalso; pose proof (pow_nonzero _ 2 Z); contradiction).
          unfold q in L. unfold D in HD. assert (G : U ^ 2 * (1 - s ^ 2) = 1) by lra. assert ((1 + (s * U) ^ 2) * (e + s) = s * (1 - U ^ 2 * (1 - s ^ 2))) by nra. rewrite G in H. assert (Z : (1 + (s * U) ^ 2) * (e + s) = 0) by lra. apply Rmult_integral in Z. destruct Z as [Z|Z]; [pose proof (pow2_ge_0 (s * U)); lra|exact Z]. }
        unfold D in DP. assert (P : 0 <= 1 - s ^ 2) by nra. pose proof (sqrt_pos (1 - s ^ 2)). pose proof (pow2_sqrt _ P) as SQ. destruct (Rlt_le_dec (U * sqrt (1 - s ^ 2)) 1) as [B|B]; [exact B|exfalso].
        assert (X : 1 <= (U * sqrt (1 - s ^ 2)) ^ 2) by nra. rewrite Rpow_mult_distr, SQ in X. lra.
      + destruct (Rlt_le_dec U 1) as [B|B]; [exact B|exfalso]. unfold eqn in E. assert (1 <= U ^ 2) by nra. assert (0 <= e * s) by (apply Rmult_le_pos; lra). assert (X : 1 <= (1 + e * s) ^ 2) by nra. assert (Y : 1 <= U ^ 2 * (1 + e * s) ^ 2) by (replace 1 with (1 * 1) at 1 by ring; apply Rmult_le_compat; lra). nra.
  Qed.
End roots.

Section planet.
  Variables (r : R) (p : planet).
  Hypothesis T : transits r p.
  Let s := sin (p_omega p).
  Let c := circular_duration r p.
  Let U := scaled_duration r p.
  Lemma s_rng : -1 <= s <= 1. Proof. unfold s. pose proof (SIN_bound (p_omega p)). lra. Qed.
  Lemma chord_pos : 0 < (1 + p_ror p) ^ 2 - p_b p ^ 2. Proof. pose proof (tr_chord _ _ T). lra. Qed.
  Lemma c_pos : 0 < c.
  Proof.
    unfold c, circular_duration. destruct T as [A B C E F]. apply Rdiv_lt_0_compat; [|apply Rmult_lt_0_compat; [exact PI_RGT_0|exact C]]. apply Rmult_lt_0_compat; [apply Rmult_lt_0_compat; assumption|apply sqrt_lt_R0, chord_pos].
  Qed.
  Lemma U_pos : 0 < U. Proof. unfold U, scaled_duration. apply Rdiv_lt_0_compat; [exact (tr_dur _ _ T)|exact c_pos]. Qed.
  Lemma const_fin : d_const r p = Fin c.
  Proof.
    unfold d_const, fsq. cbn [fmul fadd]. rewrite fsub_fin. rewrite fsqrt_fin by (pose proof chord_pos; nra). cbn [fmul]. rewrite fdiv_fin by (apply Rmult_integral_contrapositive_currified; [pose proof PI_RGT_0; lra|pose proof (tr_a _ _ T); lra]).
    unfold c, circular_duration. do 3 f_equal. f_equal. ring.
  Qed.
  Lemma u_fin : d_u r p = Fin U.
  Proof. unfold d_u. rewrite const_fin, fdiv_fin by (pose proof c_pos; lra). reflexivity. Qed.
  Lemma s_fin : d_s p = Fin s. Proof. reflexivity. Qed.
  Lemma ecc_fin sg : 0 <= D s U -> d_ecc sg (d_s p) (d_u r p) = Fin (er s U sg).
  Proof.
    intro H. rewrite u_fin, s_fin. pose proof (q_pos s U) as Q. unfold d_ecc, d_e1, d_e2, fsq. cbn [fneg fmul fadd fsub]. unfold D in H. rewrite fsqrt_fin by lra. rewrite !fdiv_fin by (unfold q in Q; lra). cbn [fmul fadd]. f_equal. unfold er.
    replace ((s * s + - (1)) * (U * U) + 1) with (D s U) by (unfold D; ring). replace (s * U * (s * U) + 1) with (q s U) by (unfold q; ring). field. lra.
  Qed.
  Lemma ecc_nan sg : D s U < 0 -> d_ecc sg (d_s p) (d_u r p) = NaN.
  Proof.
    intro H. rewrite u_fin, s_fin. unfold d_ecc, d_e1, d_e2, fsq. cbn [fneg fmul fadd fsub]. pose proof (q_pos s U) as Q. rewrite (fdiv_fin (- s * (U * U))) by (unfold q in Q; lra). cbn [fsqrt]. rewrite Rltb_true by (unfold D in H; lra). reflexivity.
  Qed.
  Lemma root_eqn e : root r p e <-> eqn s U e. Proof. reflexivity. Qed.
  Lemma one_es e : 0 <= e < 1 -> 0 < 1 + e * s. Proof. intro H. pose proof s_rng. nra. Qed.
  Lemma ecc_iff e : is_eccentricity r p e <-> 0 <= e < 1 /\ root r p e.
  Proof.
    unfold is_eccentricity. split; intros [H E]; (split; [exact H|]); pose proof (one_es e H) as P; pose proof c_pos as C; pose proof U_pos as UP.
    - unfold root. unfold duration_at in E. fold c s in E. fold U s. assert (EU : U * (1 + e * s) = sqrt (1 - e ^ 2)). { unfold U, scaled_duration. fold c. rewrite <- E. field. split; lra. }
      rewrite <- Rpow_mult_distr, EU. apply pow2_sqrt. nra.
    - unfold duration_at. fold c s. assert (EU : U * (1 + e * s) = sqrt (1 - e ^ 2)). { unfold root in E. fold U s in E. rewrite <- E, <- Rpow_mult_distr, sqrt_pow2; [reflexivity|]. apply Rmult_le_pos; lra. }
      rewrite <- EU. unfold U, scaled_duration. fold c. field. split; lra.
  Qed.
  Theorem roots_law_ : ((exists e, root r p e) -> exists em ep, d_ecc (-1) (d_s p) (d_u r p) = Fin em /\ d_ecc 1 (d_s p) (d_u r p) = Fin ep /\ em <= ep /\ forall e, root r p e <-> e = em \/ e = ep) /\
    ((~ exists e, root r p e) -> d_ecc (-1) (d_s p) (d_u r p) = NaN /\ d_ecc 1 (d_s p) (d_u r p) = NaN).
  Proof.
    split.
    - intros [e0 E0]. pose proof (eqn_D s U e0 E0) as HD. exists (er s U (-1)), (er s U 1). split; [apply ecc_fin; exact HD|]. split; [apply ecc_fin; exact HD|]. split; [apply er_le|].
      intro e. split; [apply roots_all|]. intros [-> | ->]; apply er_root; auto.
    - intro N. assert (HD : D s U < 0). { destruct (Rlt_le_dec (D s U) 0) as [L|L]; [exact L|]. exfalso. apply N. exists (er s U 1). apply er_root; [exact L|right; reflexivity]. } split; apply ecc_nan; exact HD.
  Qed.
  Lemma valid_iff e : d_valid (Fin e) = true <-> 0 <= e < 1.
  Proof. unfold d_valid. cbn [flt fle]. unfold Rltb, Rleb. destruct (Rlt_dec e 1), (Rle_dec 0 e); cbn; split; intro H; try discriminate; try lra; reflexivity. Qed.
  Theorem valid_law_ : forall e, is_eccentricity r p e <-> (d_ecc (-1) (d_s p) (d_u r p) = Fin e \/ d_ecc 1 (d_s p) (d_u r p) = Fin e) /\ d_valid (Fin e) = true.
  Proof.
    intro e. rewrite ecc_iff, valid_iff. split.
    - intros [H R0]. split; [|exact H]. pose proof (eqn_D s U e R0) as HD. destruct (roots_all s U e R0) as [-> | ->]; [left|right]; apply ecc_fin; exact HD.
    - intros [E H]. split; [exact H|]. destruct (Rlt_le_dec (D s U) 0) as [L|L].
      + rewrite !ecc_nan in E by exact L. destruct E; discriminate.
      + rewrite !ecc_fin in E by exact L. destruct E as [E|E]; injection E as <-; apply er_root; auto.
  Qed.
  (** Jacobian *)
  Lemma rate_law_ e : 0 <= e < 1 -> e + s <> 0 -> exists v, rate r p e v /\ 0 < v /\ d_logjac (d_s p) (d_const r p) (Fin e) = Fin (ln v).
  Proof.
    intros H N. pose proof (one_es e H) as P. pose proof c_pos as C. assert (Q : 0 < 1 - e ^ 2) by nra. pose proof (sqrt_lt_R0 _ Q) as SQ. pose proof (pow2_sqrt _ (Rlt_le _ _ Q)) as SS.
    pose (d := - (c * (e + s) / (sqrt (1 - e ^ 2) * (1 + e * s) ^ 2))).
    assert (PD : 0 < sqrt (1 - e ^ 2) * (1 + e * s) ^ 2) by (apply Rmult_lt_0_compat; [exact SQ|apply pow_lt; exact P]).
    assert (DV : is_derive (duration_at r p) e d).
    { unfold duration_at. fold c s. auto_derive; [split; [exact Q|split; [lra|exact I]]|]. replace (e * (e * 1)) with (e ^ 2) by ring. replace (1 + - e ^ 2) with (1 - e ^ 2) by ring. unfold d.
      transitivity (- c * (e * (1 + e * s) + s * sqrt (1 - e ^ 2) ^ 2) / (sqrt (1 - e ^ 2) * (1 + e * s) ^ 2)); [field; split; lra|]. rewrite SS. field. split; lra. }
    assert (DN : d <> 0). { unfold d. apply Ropp_neq_0_compat. unfold Rdiv. apply Rmult_integral_contrapositive_currified; [apply Rmult_integral_contrapositive_currified; lra|apply Rinv_neq_0_compat; lra]. }
    assert (AD : Rabs d = c * Rabs (s + e) / (sqrt (1 - e ^ 2) * (1 + e * s) ^ 2)). { unfold d. rewrite Rabs_Ropp. unfold Rdiv. rewrite !Rabs_mult, Rabs_inv, (Rabs_pos_eq c) by lra. rewrite (Rabs_pos_eq (sqrt (1 - e ^ 2) * _)) by lra. rewrite (Rplus_comm e s). reflexivity. }
    assert (AP : 0 < Rabs (s + e)) by (apply Rabs_pos_lt; lra).
    exists (1 / Rabs d). split; [exists d; split; [exact DV|split; [exact DN|reflexivity]]|]. split; [apply Rdiv_lt_0_compat; [lra|apply Rabs_pos_lt; exact DN]|].
    assert (V : 1 / Rabs d = sqrt (1 - e ^ 2) * (1 + e * s) ^ 2 / (c * Rabs (s + e))) by (rewrite AD; field; repeat split; lra). rewrite V.
    unfold d_logjac. rewrite const_fin, s_fin. unfold fsq. cbn [fmul]. rewrite fsub_fin. cbn [fadd fabs flog]. rewrite !Rltb_true by nra. cbn [fmul fadd]. rewrite !fsub_fin. f_equal.
    rewrite ln_div; [|exact PD|apply Rmult_lt_0_compat; lra]. rewrite (ln_mult (sqrt _)); [|exact SQ|apply pow_lt; exact P]. rewrite (ln_mult c) by assumption.
    assert (LP : ln ((1 + e * s) ^ 2) = 2 * ln (1 + e * s)) by (replace ((1 + e * s) ^ 2) with ((1 + e * s) * (1 + e * s)) by ring; rewrite ln_mult by exact P; ring). rewrite LP.
    assert (LQ : ln (1 - e ^ 2) = 2 * ln (sqrt (1 - e ^ 2))) by (rewrite <- SS at 1; replace (sqrt (1 - e ^ 2) ^ 2) with (sqrt (1 - e ^ 2) * sqrt (1 - e ^ 2)) by ring; rewrite ln_mult by exact SQ; ring).
    replace (1 - e * e) with (1 - e ^ 2) by ring. replace (s * e + 1) with (1 + e * s) by ring. rewrite LQ. lra.
  Qed.
  (** range *)
  Lemma in_range_cond : in_range r p = true <-> cond s U.
  Proof.
    unfold in_range, d_umax_inv, cond. rewrite u_fin, s_fin. pose proof U_pos as UP. rewrite fdiv_fin by lra. cbn [flt]. unfold Rltb at 1. destruct (Rlt_dec s 0) as [N|N].
    - unfold fsq. cbn [fmul]. rewrite fsub_fin. pose proof s_rng as SR. assert (P : 0 <= 1 - s ^ 2) by nra. rewrite fsqrt_fin by nra. cbn [flt]. replace (1 - s * s) with (1 - s ^ 2) by ring. unfold Rltb. destruct (Rlt_dec _ _) as [L|L]; split; intro H; try reflexivity; try discriminate.
      + apply (Rmult_lt_compat_l U) in L; [|exact UP]. replace (U * (1 / U)) with 1 in L by (field; lra). exact L.
      + exfalso. apply L. apply (Rmult_lt_reg_l U); [exact UP|]. replace (U * (1 / U)) with 1 by (field; lra). exact H.
    - cbn [flt]. unfold Rltb. destruct (Rlt_dec _ _) as [L|L]; split; intro H; try reflexivity; try discriminate.
      + apply (Rmult_lt_compat_l U) in L; [|exact UP]. replace (U * (1 / U)) with 1 in L by (field; lra). lra.
      + exfalso. apply L. apply (Rmult_lt_reg_l U); [exact UP|]. replace (U * (1 / U)) with 1 by (field; lra). lra.
  Qed.
  Theorem range_law_ : -1 < s -> (in_range r p = true <-> exists e, 0 < e /\ is_eccentricity r p e /\ e + s <> 0).
  Proof.
    intro S2. rewrite in_range_cond, (cond_range s U U_pos S2). split; intros (e & H).
    - exists e. rewrite ecc_iff. rewrite root_eqn. destruct H as (A & B & C). repeat split; try lra; assumption.
    - exists e. rewrite ecc_iff, root_eqn in H. destruct H as (A & (B & C) & E). repeat split; try lra; assumption.
  Qed.
End planet.
Lemma fsum_one x : fsum [x] = fadd x (Fin 0). Proof. reflexivity. Qed.
Lemma one_branches r p : branches r [p] = [make_branch r [p] [("n"%string, -1)]; make_branch r [p] [("p"%string, 1)]].
Proof. reflexivity. Qed.
Lemma branch_valid r p (T : transits r p) n sg e : d_ecc sg (d_s p) (d_u r p) = Fin e -> 0 <= e < 1 -> e + sin (p_omega p) <> 0 ->
  exists v, rate r p e v /\ 0 < v /\ make_branch r [p] [(n, sg)] = {| br_labels := [n]; br_ecc := [Fin e]; br_logjac := Fin (ln v) |}.
Proof.
  intros E H N. destruct (rate_law_ r p T e H N) as (v & A & B & C). exists v. split; [exact A|]. split; [exact B|]. unfold make_branch. cbn [combine map fst snd forallb]. rewrite E. rewrite (proj2 (valid_iff e) H). cbn [andb]. rewrite C. cbn [fsum fadd]. rewrite Rplus_0_r. reflexivity.
Qed.
Lemma branch_invalid r p n sg e : d_ecc sg (d_s p) (d_u r p) = Fin e -> ~ 0 <= e < 1 -> make_branch r [p] [(n, sg)] = {| br_labels := [n]; br_ecc := [Fin 0]; br_logjac := Inf false |}.
Proof.
  intros E H. unfold make_branch. cbn [combine map fst snd forallb]. rewrite E. destruct (d_valid (Fin e)) eqn:V; [apply valid_iff in V; contradiction|]. reflexivity.
Qed.
Theorem marginal_law : forall logprob lp r p, transits r p -> -1 < sin (p_omega p) -> (forall e, logprob [Fin e] = Fin (lp e)) ->
  (in_range r p = false -> exists out, marginalize logprob r [p] = Ok out /\ de_potential out = [Inf false]) /\
  (in_range r p = true -> exists es vs out, all_eccentricities r p es /\ Forall2 (rate r p) es vs /\ es <> [] /\
     marginalize logprob r [p] = Ok out /\ de_potential out = [Fin (ln (weighted_sum (fun e => exp (lp e)) es vs))] /\
     Forall2 (weight r p (weighted_sum (fun _ => 1) es vs)) (de_branches out) (de_logw out) /\ fsum (map fexp (de_logw out)) = Fin 1).
Proof.
  intros logprob lp r p T S2 L. split; intro IR.
  - eexists. split; [reflexivity|]. cbn [de_potential]. rewrite IR. reflexivity.
  - set (s := sin (p_omega p)) in *. set (U := scaled_duration r p). pose proof (proj1 (in_range_cond r p T) IR) as CD. fold s U in CD. pose proof (s_rng p) as SR. fold s in SR. pose proof (U_pos r p T) as UP. fold U in UP.
    pose proof (cond_D s U UP S2 CD) as DP. pose proof (er_neq s U DP) as NE. pose proof (ecc_fin r p T (-1) (Rlt_le _ _ DP)) as E1. pose proof (ecc_fin r p T 1 (Rlt_le _ _ DP)) as E2. fold s U in E1, E2.
    set (em := er s U (-1)) in *. set (ep := er s U 1) in *.
    assert (RM : root r p em) by (apply (er_root s U); [lra|left; reflexivity]). assert (RP : root r p ep) by (apply (er_root s U); [lra|right; reflexivity]).
    assert (IE : forall e, is_eccentricity r p e <-> 0 <= e < 1 /\ (e = em \/ e = ep)).
    { intro e. rewrite (ecc_iff r p T). split; intros [A B]; (split; [exact A|]); [exact (roots_all s U e B)|destruct B as [-> | ->]; assumption]. }
    assert (NZ : forall e, 0 <= e < 1 -> root r p e -> e + s <> 0) by (intros e A B; apply (sum_ne s U); [lra|exact DP|exact B]).
    assert (EX : exists e, 0 <= e < 1 /\ (e = em \/ e = ep)). { destruct (proj1 (range_law_ r p T S2) IR) as (e & _ & A & _). exists e. apply IE. exact A. }
    assert (VD : forall e, {0 <= e < 1} + {~ 0 <= e < 1}) by (intro e; destruct (Rle_dec 0 e), (Rlt_dec e 1); try (left; lra); right; lra).
    unfold marginalize. rewrite one_branches. cbv zeta. destruct (VD em) as [VM|VM]; destruct (VD ep) as [VP|VP].
    + destruct (branch_valid r p T "n" (-1) em E1 VM (NZ _ VM RM)) as (v1 & R1 & P1 & ->). destruct (branch_valid r p T "p" 1 ep E2 VP (NZ _ VP RP)) as (v2 & R2 & P2 & ->).
      exists [em; ep], [v1; v2]. eexists. split; [|split; [repeat constructor; assumption|split; [discriminate|split; [reflexivity|]]]].
      { split; [constructor; [cbn; intros [Q|[]]; lra|constructor; [intros []|constructor]]|]. intro e. rewrite IE. cbn [In]. split; [intros [<-|[<-|[]]]; auto|intros [_ [-> | ->]]; auto]. }
      rewrite IR. cbn [de_potential de_branches de_logw map br_ecc br_logjac]. rewrite !L. unfold logsumexp. cbn [map fsum fadd fexp weighted_sum]. rewrite !exp_plus, !exp_ln by assumption. pose proof (exp_pos (lp em)). pose proof (exp_pos (lp ep)).
      assert (Q1 : 0 < exp (lp em) * v1) by (apply Rmult_lt_0_compat; assumption). assert (Q2 : 0 < exp (lp ep) * v2) by (apply Rmult_lt_0_compat; assumption). cbn [flog]. rewrite !Rltb_true by lra. rewrite !fsub_fin. cbn [fexp].
      assert (W : forall v, 0 < v -> exp (ln v - ln (v1 + (v2 + 0))) = v / (1 * v1 + (1 * v2 + 0))). { intros v V. unfold Rminus. rewrite exp_plus, exp_Ropp, !exp_ln by lra. rewrite !Rmult_1_l. reflexivity. }
      split; [reflexivity|]. split; [|cbn [map fexp fsum fadd]; rewrite !W by assumption; f_equal; field; lra].
      constructor; [left; exists em, v1; rewrite <- W by assumption; repeat split; try reflexivity; try (apply IE; auto); assumption|]. constructor; [left; exists ep, v2; rewrite <- W by assumption; repeat split; try reflexivity; try (apply IE; auto); assumption|]. constructor.
    + destruct (branch_valid r p T "n" (-1) em E1 VM (NZ _ VM RM)) as (v1 & R1 & P1 & ->). rewrite (branch_invalid r p "p" 1 ep E2 VP).
      exists [em], [v1]. eexists. split; [|split; [repeat constructor; assumption|split; [discriminate|split; [reflexivity|]]]].
      { split; [constructor; [intros []|constructor]|]. intro e. rewrite IE. cbn [In]. split; [intros [<-|[]]; auto|intros [Q [-> | ->]]; [auto|contradiction]]. }
      rewrite IR. cbn [de_potential de_branches de_logw map br_ecc br_logjac]. rewrite !L. unfold logsumexp. cbn [map fsum fadd fexp weighted_sum]. rewrite !exp_plus, !exp_ln by assumption. pose proof (exp_pos (lp em)).
      assert (Q1 : 0 < exp (lp em) * v1) by (apply Rmult_lt_0_compat; assumption). cbn [flog]. rewrite !Rltb_true by lra. unfold fsub. cbn [fneg fadd fexp].
      assert (W : exp (ln v1 + - ln (v1 + (0 + 0))) = v1 / (1 * v1 + 0)). { rewrite exp_plus, exp_Ropp, !exp_ln by lra. unfold Rdiv. f_equal. f_equal. ring. }
      split; [do 3 f_equal; ring|]. split; [|cbn [map fexp fsum fadd]; rewrite W; f_equal; field; lra].
      constructor; [left; exists em, v1; rewrite <- W; repeat split; try reflexivity; try (apply IE; auto); assumption|]. constructor; [right; repeat split; reflexivity|constructor].
    + rewrite (branch_invalid r p "n" (-1) em E1 VM). destruct (branch_valid r p T "p" 1 ep E2 VP (NZ _ VP RP)) as (v1 & R1 & P1 & ->).
      exists [ep], [v1]. eexists. split; [|split; [repeat constructor; assumption|split; [discriminate|split; [reflexivity|]]]].
      { split; [constructor; [intros []|constructor]|]. intro e. rewrite IE. cbn [In]. split; [intros [<-|[]]; auto|intros [Q [-> | ->]]; [contradiction|auto]]. }
      rewrite IR. cbn [de_potential de_branches de_logw map br_ecc br_logjac]. rewrite !L. unfold logsumexp. cbn [map fsum fadd fexp weighted_sum]. rewrite !exp_plus, !exp_ln by assumption. pose proof (exp_pos (lp ep)).
      assert (Q1 : 0 < exp (lp ep) * v1) by (apply Rmult_lt_0_compat; assumption). cbn [flog]. rewrite !Rltb_true by lra. unfold fsub. cbn [fneg fadd fexp].
      assert (W : exp (ln v1 + - ln (0 + (v1 + 0))) = v1 / (1 * v1 + 0)). { rewrite exp_plus, exp_Ropp, !exp_ln by lra. unfold Rdiv. f_equal. f_equal. ring. }
      split; [do 3 f_equal; ring|]. split; [|cbn [map fexp fsum fadd]; rewrite W; f_equal; field; lra].
      constructor; [right; repeat split; reflexivity|]. constructor; [left; exists ep, v1; rewrite <- W; repeat split; try reflexivity; try (apply IE; auto); assumption|constructor].
    + exfalso. destruct EX as (e & A & [-> | ->]); contradiction.
Qed.
Theorem raises_law : forall resolver logprob a period rho_star r_star m_star m_planet ru mu,
  duration_to_eccentricity resolver logprob a period rho_star r_star m_star m_planet ru mu = Err TypeErr.
Proof. reflexivity. Qed.
Theorem many_planets : forall logprob r ps, length ps <> 1%nat -> marginalize logprob r ps = Err ShapeErr.
Proof. intros logprob r ps H. destruct ps as [|p [|p' ps]]; [reflexivity|cbn in H; congruence|reflexivity]. Qed.
Theorem signs_law : forall n l, In l (map (map snd) (sign_product n)) <-> length l = n /\ List.Forall (fun x => x = -1 \/ x = 1) l.
Proof.
  induction n as [|n IH]; intro l.
  - cbn. split; [intros [<-|[]]; split; [reflexivity|constructor]|]. intros [E _]. destruct l; [left; reflexivity|discriminate].
  - cbn [sign_product flat_map]. rewrite app_nil_r, map_app, in_app_iff, !map_map. split.
    + intros [I|I]; apply in_map_iff in I; destruct I as (a & <- & I); cbn [map snd length]; destruct (proj1 (IH (map snd a)) (in_map _ _ _ I)) as [A B]; (split; [f_equal; exact A|constructor; auto]).
    + intros [E F]. destruct l as [|x l]; [discriminate|]. injection E as E. pose proof (Forall_inv F) as F1. pose proof (Forall_inv_tail F) as F2.
      assert (I : In l (map (map snd) (sign_product n))) by (apply IH; split; assumption). apply in_map_iff in I. destruct I as (a & <- & I). destruct F1 as [-> | ->]; [left|right]; apply in_map_iff; exists a; split; try reflexivity; exact I.
Qed.
Theorem roots_law : forall r p, transits r p ->
  ((exists e, root r p e) -> exists em ep, d_ecc (-1) (d_s p) (d_u r p) = Fin em /\ d_ecc 1 (d_s p) (d_u r p) = Fin ep /\ em <= ep /\
      forall e, root r p e <-> e = em \/ e = ep) /\
  (~ (exists e, root r p e) -> d_ecc (-1) (d_s p) (d_u r p) = NaN /\ d_ecc 1 (d_s p) (d_u r p) = NaN).
Proof. exact roots_law_. Qed.
Theorem valid_law : forall r p e, transits r p ->
  (is_eccentricity r p e <-> (d_ecc (-1) (d_s p) (d_u r p) = Fin e \/ d_ecc 1 (d_s p) (d_u r p) = Fin e) /\ d_valid (Fin e) = true).
Proof. intros r p e T. exact (valid_law_ r p T e). Qed.
Theorem rate_law : forall r p e, transits r p -> 0 <= e < 1 -> e + sin (p_omega p) <> 0 ->
  exists v, rate r p e v /\ 0 < v /\ d_logjac (d_s p) (d_const r p) (Fin e) = Fin (ln v).
Proof. intros r p e T. exact (rate_law_ r p T e). Qed.
Theorem range_law : forall r p, transits r p -> -1 < sin (p_omega p) ->
  (in_range r p = true <-> exists e, 0 < e /\ is_eccentricity r p e /\ e + sin (p_omega p) <> 0).
Proof. exact range_law_. Qed.
Lemma ex_sin : sin (p_omega ex_planet) = -3 / 5.
Proof. cbn [p_omega ex_planet]. rewrite sin_neg, sin_asin by lra. lra. Qed.
Lemma ex_tr : transits 1 ex_planet.
Proof. constructor; cbn; try lra. pose proof PI_RGT_0. lra. Qed.
Lemma ex_circ : circular_duration 1 ex_planet = 1.
Proof. unfold circular_duration. cbn [p_period p_ror p_b p_a ex_planet]. replace ((1 + 1 / 10) ^ 2 - 0 ^ 2) with ((11 / 10) * (11 / 10)) by field. rewrite sqrt_square by lra. pose proof PI_RGT_0. field. lra. Qed.
Lemma ex_e0 : is_eccentricity 1 ex_planet 0.
Proof. split; [lra|]. unfold duration_at. rewrite ex_circ. replace (1 - 0 ^ 2) with (1 * 1) by ring. rewrite sqrt_square by lra. cbn [p_duration ex_planet]. field. Qed.
Lemma ex_e1 : is_eccentricity 1 ex_planet (15 / 17).
Proof. split; [lra|]. unfold duration_at. rewrite ex_circ, ex_sin. replace (1 - (15 / 17) ^ 2) with ((8 / 17) * (8 / 17)) by field. rewrite sqrt_square by lra. cbn [p_duration ex_planet]. field. Qed.
Lemma ex_durecc_ok : transits 1 ex_planet /\ -1 < sin (p_omega ex_planet) /\ in_range 1 ex_planet = true /\
  is_eccentricity 1 ex_planet 0 /\ is_eccentricity 1 ex_planet (15 / 17).
Proof.
  split; [exact ex_tr|]. split; [rewrite ex_sin; lra|]. split; [|split; [exact ex_e0|exact ex_e1]].
  apply range_law; [exact ex_tr|rewrite ex_sin; lra|]. exists (15 / 17). split; [lra|]. split; [exact ex_e1|]. rewrite ex_sin. lra.
Qed.
