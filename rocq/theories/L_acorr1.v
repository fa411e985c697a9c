(** * autocorr_estimator: peak selection *)
From Coq Require Import Reals List Bool Arith ZArith Lia Lra Sorted.
From Verif Require Import Num CoreOps Inst M_peaks M_acf M_acorr Spec_acf Spec_acorr L_acf1 L_acf2 L_params3.
Import ListNotations.
Open Scope R_scope.

Lemma fold_min l : forall a, let m := fold_left Rmin l a in (m = a \/ In m l) /\ m <= a /\ forall b, In b l -> m <= b.
Proof.
  induction l as [|c l IH]; intro a; cbn [fold_left]; [cbv zeta; split; [left; reflexivity|split; [lra|intros ? []]]|]. destruct (IH (Rmin a c)) as (H1 & H2 & H3). cbv zeta in *. set (m := fold_left Rmin l (Rmin a c)) in *.
  assert (Rmin a c <= a) by apply Rmin_l. assert (Rmin a c <= c) by apply Rmin_r. split; [|split].
  - destruct H1 as [H1|H1]; [|right; right; exact H1]. rewrite H1. unfold Rmin. destruct (Rle_dec a c); [left; reflexivity|right; left; reflexivity].
  - lra.
  - intros b [<-|B]; [lra|exact (H3 b B)].
Qed.
Lemma fold_max l : forall a, let m := fold_left Rmax l a in (m = a \/ In m l) /\ a <= m /\ forall b, In b l -> b <= m.
Proof.
  induction l as [|c l IH]; intro a; cbn [fold_left]; [cbv zeta; split; [left; reflexivity|split; [lra|intros ? []]]|]. destruct (IH (Rmax a c)) as (H1 & H2 & H3). cbv zeta in *. set (m := fold_left Rmax l (Rmax a c)) in *.
  assert (a <= Rmax a c) by apply Rmax_l. assert (c <= Rmax a c) by apply Rmax_r. split; [|split].
  - destruct H1 as [H1|H1]; [|right; right; exact H1]. rewrite H1. unfold Rmax. destruct (Rle_dec a c); [right; left; reflexivity|left; reflexivity].
  - lra.
  - intros b [<-|B]; [lra|exact (H3 b B)].
Qed.
Lemma amin_least x a : amin x = Ok a -> least x a.
Proof.
  destruct x as [|b l]; [discriminate|]. cbn [amin]. intro E. apply Ok_inj in E. subst a. destruct (fold_min l b) as (H1 & H2 & H3). split.
  - destruct H1 as [->|H1]; [left; reflexivity|right; exact H1].
  - intros c [<-|C]; [exact H2|exact (H3 c C)].
Qed.
Lemma amax_greatest x a : amax x = Ok a -> greatest x a.
Proof.
  destruct x as [|b l]; [discriminate|]. cbn [amax]. intro E. apply Ok_inj in E. subst a. destruct (fold_max l b) as (H1 & H2 & H3). split.
  - destruct H1 as [->|H1]; [left; reflexivity|right; exact H1].
  - intros c [<-|C]; [exact H2|exact (H3 c C)].
Qed.
Lemma diff_in x d : In d (diff x) <-> exists i, (S i < length x)%nat /\ nth (S i) x 0 - nth i x 0 = d.
Proof.
  induction x as [|a [|b l] IH].
  - cbn. split; [intros []|intros (i & H & _); lia].
  - cbn. split; [intros []|intros (i & H & _); lia].
  - change (diff (a :: b :: l)) with ((b - a) :: diff (b :: l)). cbn [In]. rewrite IH. split.
    + intros [<-|(i & H & E)]; [exists 0%nat; split; [cbn; lia|reflexivity]|]. exists (S i). split; [cbn [length] in *; lia|exact E].
    + intros ([|i] & H & E); [left; exact E|]. right. exists i. split; [cbn [length] in *; lia|exact E].
Qed.
Lemma amin_diff x d : amin (diff x) = Ok d -> min_spacing x d.
Proof.
  intro E. apply amin_least in E. destruct E as [I M]. apply diff_in in I. split; [exact I|]. intros i H. apply M. apply diff_in. exists i. split; [exact H|reflexivity].
Qed.

(** sorted lists of indices *)
Lemma local_maxima_in acor i : In i (local_maxima acor) <-> (1 <= i)%nat /\ (i + 1 < length acor)%nat /\ flt (fth (i - 1) acor) (fth i acor) = true /\ flt (fth (i + 1) acor) (fth i acor) = true.
Proof. unfold local_maxima. rewrite filter_In, in_seq, andb_true_iff. split; [intros (H & A & B)|intros (H1 & H2 & A & B)]; repeat split; try assumption; lia. Qed.
Lemma ssorted_seq a n : StronglySorted lt (seq a n).
Proof. revert a. induction n as [|n IH]; intro a; cbn; constructor; [apply IH|]. apply Forall_forall. intros k K. apply in_seq in K. lia. Qed.
Lemma ssorted_filter {A} (R : A -> A -> Prop) (f : A -> bool) l : StronglySorted R l -> StronglySorted R (filter f l).
Proof.
  induction 1 as [|a l S IH F]; cbn; [constructor|]. destruct (f a); [|exact IH]. constructor; [exact IH|]. rewrite Forall_forall in *. intros b B. apply filter_In in B. apply F, B.
Qed.
Definition cands (tau : list R) (acor : list fl) (pmin : R) : list nat := filter (fun i => Rleb pmin (nth i tau 0)) (local_maxima acor).
Lemma cands_in tau acor pmin i : In i (cands tau acor pmin) <-> eligible tau acor pmin i.
Proof.
  unfold cands. rewrite filter_In, local_maxima_in. unfold eligible, fth, Rleb. destruct (Rle_dec pmin (nth i tau 0)) as [H|H].
  - split; [intros ((A & B & C & D) & _)|intros (A & B & C & D & _)]; repeat split; assumption.
  - split; [intros (_ & F); discriminate|intros (_ & _ & _ & _ & F); contradiction].
Qed.
Lemma cands_sorted tau acor pmin : StronglySorted lt (cands tau acor pmin).
Proof. apply ssorted_filter. unfold local_maxima. apply ssorted_filter, ssorted_seq. Qed.
Lemma sorted_first {E : nat -> Prop} {l i r} : l = i :: r -> (forall k, In k l <-> E k) -> StronglySorted lt l -> first_of E i.
Proof.
  intros -> H S. split; [apply H; left; reflexivity|]. intros j J Ej. apply H in Ej. destruct Ej as [->|Ej]; [lia|]. apply StronglySorted_inv in S. destruct S as [_ F]. rewrite Forall_forall in F. specialize (F j Ej). lia.
Qed.
Lemma sorted_next {E : nat -> Prop} {l i j r} : l = i :: j :: r -> (forall k, In k l <-> E k) -> StronglySorted lt l -> next_of E i j.
Proof.
  intros -> H S. apply StronglySorted_inv in S. destruct S as [S F]. apply StronglySorted_inv in S. destruct S as [_ F2]. rewrite Forall_forall in F, F2.
  split; [apply H; right; left; reflexivity|]. split; [apply F; left; reflexivity|]. intros k K Ek. apply H in Ek. destruct Ek as [->|[->|Ek]]; [lia|lia|]. specialize (F2 k Ek). lia.
Qed.
Lemma sorted_no_next {E : nat -> Prop} {l i} : l = [i] -> (forall k, In k l <-> E k) -> forall j, ~ next_of E i j.
Proof. intros -> H j (Ej & L & _). apply H in Ej. destruct Ej as [->|[]]. lia. Qed.
Lemma first_unique (E : nat -> Prop) i j : first_of E i -> first_of E j -> i = j.
Proof. intros [Ei Hi] [Ej Hj]. destruct (Nat.lt_trichotomy i j) as [L|[L|L]]; [|exact L|]; exfalso; [apply (Hj i L Ei)|apply (Hi j L Ej)]. Qed.
Lemma next_unique (E : nat -> Prop) i j k : next_of E i j -> next_of E i k -> j = k.
Proof. intros (Ej & Lj & Hj) (Ek & Lk & Hk). destruct (Nat.lt_trichotomy j k) as [L|[L|L]]; [|exact L|]; exfalso; [apply (Hk j (conj Lj L) Ej)|apply (Hj k (conj Lk L) Ek)]. Qed.

(** the tail of the function *)
Definition pick (tau : list R) (acor : list fl) (pmin pmax : R) : list (R * fl) :=
  match cands tau acor pmin with
  | [] => []
  | i :: rest =>
      if Rltb pmax (nth i tau 0) then [] else
      match rest with
      | [] => [(nth i tau 0, NaN)]
      | j :: _ => let i := if flt (fth i acor) (fth j acor) then j else i in if Rltb pmax (nth i tau 0) then [] else [(nth i tau 0, NaN)]
      end
  end.
Lemma Rltb_dec a b : (Rltb a b = true /\ a < b) \/ (Rltb a b = false /\ b <= a).
Proof. unfold Rltb. destruct (Rlt_dec a b); [left|right]; split; (reflexivity || lra). Qed.
Lemma pick_spec tau acor pmin pmax :
  (pick tau acor pmin pmax = [] /\ forall i, ~ selected tau acor pmin pmax i) \/
  (exists i, pick tau acor pmin pmax = [(nth i tau 0, NaN)] /\ selected tau acor pmin pmax i /\ eligible tau acor pmin i).
Proof.
  unfold pick, selected. cbv zeta. set (E := eligible tau acor pmin). assert (EI := cands_in tau acor pmin). assert (SS := cands_sorted tau acor pmin). fold E in EI.
  destruct (cands tau acor pmin) as [|i rest] eqn:EC.
  - left. split; [reflexivity|]. intros i (_ & [[[F _] _]|(f & [F _] & _)]); apply EI in F; destruct F.
  - assert (Fi := sorted_first eq_refl EI SS). destruct (Rltb_dec pmax (nth i tau 0)) as [[-> L]|[-> L]].
    + left. split; [reflexivity|]. intros k (T & [[F _]|(f & F & TF & _)]); [assert (k = i) by (apply (first_unique E); assumption)|assert (f = i) by (apply (first_unique E); assumption)]; subst; lra.
    + destruct rest as [|j rest].
      * right. exists i. split; [reflexivity|]. split; [split; [exact L|]|exact (proj1 Fi)]. left. split; [exact Fi|]. intros j N. exfalso. exact (sorted_no_next eq_refl EI j N).
      * assert (Nj := sorted_next eq_refl EI SS). destruct (flt (fth i acor) (fth j acor)) eqn:EF.
        -- destruct (Rltb_dec pmax (nth j tau 0)) as [[-> L2]|[-> L2]].
           ++ left. split; [reflexivity|]. intros k (T & [[F NH]|(f & F & TF & NX & _)]).
              ** assert (k = i) by (apply (first_unique E); assumption). subst k. apply (NH j Nj). exact EF.
              ** assert (f = i) by (apply (first_unique E); assumption). subst f. assert (k = j) by (apply (next_unique E i); assumption). subst k. lra.
           ++ right. exists j. split; [reflexivity|]. split; [split; [exact L2|]|exact (proj1 Nj)]. right. exists i. split; [exact Fi|]. split; [exact L|]. split; [exact Nj|exact EF].
        -- destruct (Rltb_dec pmax (nth i tau 0)) as [[-> L2]|[-> L2]]; [lra|]. right. exists i. split; [reflexivity|]. split; [split; [exact L|]|exact (proj1 Fi)]. left. split; [exact Fi|].
           intros k NX H. assert (k = j) by (apply (next_unique E i); assumption). subst k. unfold higher in H. unfold fth in EF. rewrite EF in H. discriminate.
Qed.

Lemma est_eq gf x y minp maxp ov sm mp : autocorr_estimator (Some gf) x y minp maxp ov sm mp =
  (pmin <- match minp with None => amin (diff x) | Some p => Ok p end ;;
   pmax <- match maxp with None => b <- amax x ;; a <- amin x ;; Ok (b - a) | Some p => Ok p end ;;
   d <- amin (diff x) ;;
   if Reqb ov 0 then Err NotImpl else
   a <- amin x ;; b <- amax x ;; xx <- arange a b (d / ov) ;; yy <- interp xx x y ;;
   acor <- autocorr_function {| nd_shape := [length yy]; nd_data := yy |} ;;
   let tau := map (fun v => v - nth 0 x 0) xx in let acor := gf acor (sm * pmin / (d / ov)) in
   Ok {| ac_tau := tau; ac_acor := acor; ac_peaks := pick tau acor pmin pmax |}).
Proof.
  cbn [autocorr_estimator]. destruct (match minp with None => amin (diff x) | Some p => Ok p end) as [pmin|]; [|reflexivity]. cbn [rbind].
  destruct (match maxp with None => b <- amax x ;; a <- amin x ;; Ok (b - a) | Some p => Ok p end) as [pmax|]; [|reflexivity]. cbn [rbind].
  destruct (amin (diff x)) as [d|]; [|reflexivity]. cbn [rbind]. destruct (Reqb ov 0); [reflexivity|]. destruct (amin x) as [a|]; [|reflexivity]. cbn [rbind]. destruct (amax x) as [b|]; [|reflexivity]. cbn [rbind].
  destruct (arange a b (d / ov)) as [xx|]; [|reflexivity]. cbn [rbind]. destruct (interp xx x y) as [yy|]; [|reflexivity]. cbn [rbind]. destruct (autocorr_function _) as [ac|]; [|reflexivity]. cbn [rbind]. cbv zeta.
  unfold pick. fold (cands (map (fun v => v - nth 0 x 0) xx) (gf ac (sm * pmin / (d / ov))) pmin). destruct (cands _ _ _) as [|i rest]; [reflexivity|]. destruct (Rltb pmax _); [reflexivity|]. destruct rest as [|j rest]; [reflexivity|]. cbv zeta. destruct (Rltb pmax _); reflexivity.
Qed.
Lemma acf_length a l : autocorr_function {| nd_shape := [length a]; nd_data := a |} = Ok l -> length l = length a.
Proof.
  intro E. destruct a as [|v a']. { discriminate E. } set (a := v :: a') in *. assert (G := acf_series a ltac:(discriminate)). unfold series in G. rewrite G in E. apply Ok_inj in E. subst l. rewrite map_length, seq_length. reflexivity.
Qed.
Theorem est_select : forall gf x y minp maxp ov sm mp out, keeps_length gf -> autocorr_estimator (Some gf) x y minp maxp ov sm mp = Ok out ->
  exists pmin pmax, lower_limit x minp pmin /\ upper_limit x maxp pmax /\ length (ac_tau out) = length (ac_acor out) /\
    ((ac_peaks out = [] /\ forall i, ~ selected (ac_tau out) (ac_acor out) pmin pmax i) \/
     (exists i, ac_peaks out = [(nth i (ac_tau out) 0, NaN)] /\ selected (ac_tau out) (ac_acor out) pmin pmax i /\ eligible (ac_tau out) (ac_acor out) pmin i)).
Proof.
  intros gf x y minp maxp ov sm mp out KL E. rewrite est_eq in E.
  destruct (match minp with None => amin (diff x) | Some p => Ok p end) as [pmin|] eqn:E1; [|discriminate]. cbn [rbind] in E.
  destruct (match maxp with None => b <- amax x ;; a <- amin x ;; Ok (b - a) | Some p => Ok p end) as [pmax|] eqn:E2; [|discriminate]. cbn [rbind] in E.
  destruct (amin (diff x)) as [d|] eqn:E3; [|discriminate]. cbn [rbind] in E. destruct (Reqb ov 0); [discriminate|]. destruct (amin x) as [a|] eqn:E4; [|discriminate]. cbn [rbind] in E. destruct (amax x) as [b|] eqn:E5; [|discriminate]. cbn [rbind] in E.
  destruct (arange a b (d / ov)) as [xx|] eqn:E6; [|discriminate]. cbn [rbind] in E. destruct (interp xx x y) as [yy|] eqn:E7; [|discriminate]. cbn [rbind] in E. destruct (autocorr_function _) as [ac|] eqn:E8; [|discriminate]. cbn [rbind] in E. cbv zeta in E. apply Ok_inj in E. subst out. cbn [ac_tau ac_acor ac_peaks].
  exists pmin, pmax. split; [|split; [|split]].
  - unfold lower_limit. destruct minp; [apply Ok_inj in E1; congruence|]. apply amin_diff. rewrite E3, <- E1. reflexivity.
  - unfold upper_limit. destruct maxp; [apply Ok_inj in E2; congruence|]. cbn [rbind] in E2. apply Ok_inj in E2. exists a, b. split; [apply amin_least, E4|]. split; [apply amax_greatest, E5|]. congruence.
  - rewrite map_length, KL. apply acf_length in E8. unfold interp in E7. destruct (Nat.eqb _ _); [|discriminate]. apply Ok_inj in E7. subst yy. rewrite map_length in E8. congruence.
  - apply pick_spec.
Qed.
