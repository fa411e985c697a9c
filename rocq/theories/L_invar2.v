(** * The autocorrelation does not depend on zero points, units and direction *)
From Coq Require Import Reals Lra Lia List Bool Arith ZArith Sorted.
From Verif Require Import Num CoreOps Inst M_peaks M_acf M_acorr Spec_acf Spec_acorr Spec_invar L_real L_acf1 L_acf2.
Import ListNotations.
Open Scope R_scope.
Local Notation length := List.length.

Lemma sb_ext n f h : (forall i, (i < n)%nat -> f i = h i) -> sum_below n f = sum_below n h.
Proof. induction n as [|n IH]; intro H; cbn; [reflexivity|]. rewrite IH, H by (intros; try apply H; lia). reflexivity. Qed.
Lemma sb_affine n f g c : sum_below n (fun i => g * f i + c) = g * sum_below n f + c * INR n.
Proof. induction n as [|n IH]; [cbn; ring|]. rewrite S_INR. cbn [sum_below]. rewrite IH. ring. Qed.
Lemma sb_scal n f g : sum_below n (fun i => g * f i) = g * sum_below n f.
Proof. induction n as [|n IH]; cbn; [ring|]. rewrite IH. ring. Qed.
Lemma sb_rev n : forall f, sum_below n (fun i => f (n - 1 - i)%nat) = sum_below n f.
Proof.
  assert (H : forall n f, sum_below (S n) f = f O + sum_below n (fun i => f (S i))).
  { clear. induction n as [|n IH]; intro f; [cbn; ring|]. cbn [sum_below] in *. rewrite IH. ring. }
  induction n as [|n IH]; intro f; [reflexivity|]. rewrite H. cbn [sum_below]. replace (S n - 1 - 0)%nat with n by lia.
  rewrite (sb_ext n _ (fun i => f (n - 1 - i)%nat)) by (intros i Hi; f_equal; lia). rewrite IH. ring.
Qed.
Lemma nth_aff g c xs i : (i < length xs)%nat -> nth i (map (fun v => g * v + c) xs) 0 = g * nth i xs 0 + c.
Proof. intro H. rewrite nth_indep with (d' := g * 0 + c) by (rewrite map_length; exact H). exact (map_nth (fun v => g * v + c) xs 0 i). Qed.
Lemma mean_aff g c xs : xs <> [] -> mean_of (map (fun v => g * v + c) xs) = g * mean_of xs + c.
Proof.
  intro H. unfold mean_of. rewrite map_length. rewrite (sb_ext _ _ (fun i => g * nth i xs 0 + c)) by (intros; apply nth_aff; assumption).
  rewrite sb_affine. field. apply not_0_INR. destruct xs; [congruence|discriminate].
Qed.
Lemma acov_aff g c xs k : xs <> [] -> acov (map (fun v => g * v + c) xs) k = g ^ 2 * acov xs k.
Proof.
  intro H. unfold acov. rewrite map_length, mean_aff by exact H. rewrite <- sb_scal. apply sb_ext. intros i Hi. rewrite !nth_aff by lia. ring.
Qed.
Lemma mean_rev xs : mean_of (rev xs) = mean_of xs.
Proof.
  unfold mean_of. rewrite rev_length. f_equal. rewrite <- (sb_rev (length xs) (fun i => nth i xs 0)). apply sb_ext. intros i Hi. rewrite rev_nth by exact Hi. f_equal. lia.
Qed.
Lemma acov_rev xs k : acov (rev xs) k = acov xs k.
Proof.
  unfold acov. rewrite rev_length, mean_rev. rewrite <- (sb_rev (length xs - k) (fun i => (nth i xs 0 - mean_of xs) * (nth (i + k) xs 0 - mean_of xs))). apply sb_ext. intros i Hi.
  rewrite !rev_nth by lia. rewrite Rmult_comm. f_equal; f_equal; f_equal; lia.
Qed.
Lemma constant_aff g c xs : g <> 0 -> constant (map (fun v => g * v + c) xs) -> constant xs.
Proof.
  intros Hg [z H]. exists ((z - c) / g). intros x Ix. assert (Q := H _ (in_map (fun v => g * v + c) xs x Ix)). cbv beta in Q. rewrite <- Q. field. exact Hg.
Qed.
Lemma constant_dec xs : constant xs \/ ~ constant xs.
Proof.
  destruct xs as [|a l]; [left; exists 0; intros x []|]. destruct (Forall_dec (fun x => x = a) (fun x => Req_EM_T x a) l) as [F|F].
  - left. exists a. rewrite Forall_forall in F. intros x [<-|I]; [reflexivity|apply F, I].
  - right. intros [c H]. apply F. apply Forall_forall. intros x I. rewrite (H x (or_intror I)), (H a (or_introl eq_refl)). reflexivity.
Qed.
Lemma acf_affine : forall g c xs, g <> 0 -> autocorr_function (series (map (fun v => g * v + c) xs)) = autocorr_function (series xs).
Proof.
  intros g c xs Hg. destruct xs as [|a l]; [reflexivity|]. set (xs := a :: l). assert (NE : xs <> []) by discriminate.
  destruct (constant_dec xs) as [C|C].
  - rewrite (acf_constant xs NE C). rewrite acf_constant; [rewrite map_map; reflexivity|discriminate|]. destruct C as [z C]. exists (g * z + c). intros x I. apply in_map_iff in I. destruct I as (y & <- & I). rewrite (C y I). reflexivity.
  - rewrite (proj1 (acf_ok xs C)), (proj1 (acf_ok _ (fun H => C (constant_aff g c xs Hg H)))). rewrite map_length. f_equal. apply map_ext. intro k. rewrite !acov_aff by exact NE.
    assert (Z := proj1 (proj2 (acf_ok xs C))). f_equal. field. split; [lra|exact Hg].
Qed.
Lemma acf_reversed : forall xs, autocorr_function (series (rev xs)) = autocorr_function (series xs).
Proof.
  intro xs. destruct xs as [|a l]; [reflexivity|]. set (xs := a :: l). assert (NE : xs <> []) by discriminate. assert (NE' : rev xs <> []) by (intro H; apply (f_equal (@length R)) in H; rewrite rev_length in H; discriminate).
  destruct (constant_dec xs) as [C|C].
  - rewrite (acf_constant xs NE C), acf_constant; [|exact NE'|].
    + f_equal. rewrite map_rev. assert (E : forall l : list R, rev (map (fun _ => NaN) l) = map (fun _ => NaN) l); [|apply E]. clear. induction l as [|x l IH]; [reflexivity|]. cbn. rewrite IH. clear. induction l as [|x' l IH]; [reflexivity|]. cbn. rewrite IH. reflexivity.
    + destruct C as [z C]. exists z. intros x I. apply C. apply in_rev. exact I.
  - assert (C' : ~ constant (rev xs)). { intros [z Z]. apply C. exists z. intros x I. apply Z. rewrite <- in_rev. exact I. }
    rewrite (proj1 (acf_ok xs C)), (proj1 (acf_ok _ C')), rev_length. f_equal. apply map_ext. intro k. rewrite !acov_rev. reflexivity.
Qed.
(** ** the estimator *)
Section aff.
  Context (s d : R) (Hs : 0 < s).
  Let aff v := s * v + d.
  Lemma diff_aff x : diff (map aff x) = map (Rmult s) (diff x).
  Proof. induction x as [|a [|b x] IH]; try reflexivity. cbn [map diff] in *. rewrite IH. f_equal. unfold aff. ring. Qed.
  Lemma min_scal l : forall a, fold_left Rmin (map (Rmult s) l) (s * a) = s * fold_left Rmin l a.
  Proof. induction l as [|b l IH]; intro a; [reflexivity|]. cbn [map fold_left]. rewrite <- IH. f_equal. unfold Rmin. destruct (Rle_dec (s * a) (s * b)), (Rle_dec a b); try reflexivity; nra. Qed.
  Lemma min_aff l : forall a, fold_left Rmin (map aff l) (aff a) = aff (fold_left Rmin l a).
  Proof. induction l as [|b l IH]; intro a; [reflexivity|]. cbn [map fold_left]. rewrite <- IH. f_equal. unfold Rmin, aff. destruct (Rle_dec (s * a + d) (s * b + d)), (Rle_dec a b); try reflexivity; nra. Qed.
  Lemma max_aff l : forall a, fold_left Rmax (map aff l) (aff a) = aff (fold_left Rmax l a).
  Proof. induction l as [|b l IH]; intro a; [reflexivity|]. cbn [map fold_left]. rewrite <- IH. f_equal. unfold Rmax, aff. destruct (Rle_dec (s * a + d) (s * b + d)), (Rle_dec a b); try reflexivity; nra. Qed.
  Lemma amin_diff x : amin (diff (map aff x)) = rmap (Rmult s) (amin (diff x)).
  Proof. rewrite diff_aff. destruct (diff x) as [|a l]; [reflexivity|]. cbn [map amin rmap]. rewrite min_scal. reflexivity. Qed.
  Lemma amin_aff x : amin (map aff x) = rmap aff (amin x).
  Proof. destruct x as [|a l]; [reflexivity|]. cbn [map amin rmap]. rewrite min_aff. reflexivity. Qed.
  Lemma amax_aff x : amax (map aff x) = rmap aff (amax x).
  Proof. destruct x as [|a l]; [reflexivity|]. cbn [map amax rmap]. rewrite max_aff. reflexivity. Qed.
  Lemma arange_aff a b dx : arange (aff a) (aff b) (s * dx) = rmap (map aff) (arange a b dx).
  Proof.
    unfold arange. destruct (Req_dec dx 0) as [->|Hd].
    - rewrite Rmult_0_r, (proj2 (Reqb_true 0 0) eq_refl). reflexivity.
    - assert (Hd' : s * dx <> 0) by (apply Rmult_integral_contrapositive_currified; lra).
      destruct (Reqb dx 0) eqn:E; [apply Reqb_true in E; contradiction|]. destruct (Reqb (s * dx) 0) eqn:E'; [apply Reqb_true in E'; contradiction|].
      cbn [rmap]. f_equal. rewrite map_map. replace ((aff b - aff a) / (s * dx)) with ((b - a) / dx) by (unfold aff; field; lra). apply map_ext. intro k. unfold aff. ring.
  Qed.
  Lemma Rltb_aff a b : Rltb (aff a) (aff b) = Rltb a b.
  Proof. unfold Rltb, aff. destruct (Rlt_dec (s * a + d) (s * b + d)), (Rlt_dec a b); try reflexivity; nra. Qed.
  Lemma Rltb_scal a b : Rltb (s * a) (s * b) = Rltb a b.
  Proof. unfold Rltb. destruct (Rlt_dec (s * a) (s * b)), (Rlt_dec a b); try reflexivity; nra. Qed.
  Lemma Rleb_scal a b : Rleb (s * a) (s * b) = Rleb a b.
  Proof. unfold Rleb. destruct (Rle_dec (s * a) (s * b)), (Rle_dec a b); try reflexivity; nra. Qed.
  Lemma interp1_aff g c : forall xp fp q, StronglySorted Rlt xp -> fp <> [] -> interp1 (map aff xp) (map (fun v => g * v + c) fp) (aff q) = g * interp1 xp fp q + c.
  Proof.
    induction xp as [|x0 xt IH]; intros [|f0 ft] q St NE; try congruence; try reflexivity. cbn [map interp1]. destruct xt as [|x1 xt]; [reflexivity|]. destruct ft as [|f1 ft]; [reflexivity|].
    cbn [map]. rewrite !Rltb_aff. destruct (Rltb q x0); [reflexivity|]. destruct (Rltb q x1).
    - inversion St as [|? ? _ F]; subst. inversion F; subst. unfold aff. field. split; [lra|]. assert (0 < s * (x1 - x0)) by (apply Rmult_lt_0_compat; lra). lra.
    - apply (IH (f1 :: ft) q); [|discriminate]. inversion St; assumption.
  Qed.
End aff.
Lemma rmap_map_id {A B C} (f : A -> B) (h : B -> C) r : rmap h (rmap f r) = rmap (fun x => h (f x)) r. Proof. destruct r; reflexivity. Qed.
Lemma estimator_invariant : forall gf x y minp maxp ov sm mp s d g c, StronglySorted Rlt x -> 0 < s -> g <> 0 ->
  autocorr_estimator gf (map (fun t => s * t + d) x) (map (fun v => g * v + c) y) (option_map (Rmult s) minp) (option_map (Rmult s) maxp) ov sm mp =
  rmap (stretched s) (autocorr_estimator gf x y minp maxp ov sm mp).
Proof.
  intros gf x y minp maxp ov sm mp s d g c St Hs Hg.
  unfold autocorr_estimator. destruct gf as [gf|]; [|reflexivity]. rewrite (amin_diff s d Hs), (amin_aff s d Hs), (amax_aff s d Hs).
  destruct x as [|x0 x']; [destruct minp, maxp; reflexivity|]. set (x := x0 :: x') in *.
  destruct (amin (diff x)) as [dm|e] eqn:Ed.
  2:{ destruct minp; cbn [option_map rmap rbind]; destruct maxp; cbn [option_map rmap rbind amin amax x]; reflexivity. }
  destruct (amin x) as [a|e] eqn:Ea; [|discriminate]. destruct (amax x) as [b|e] eqn:Eb; [|discriminate].
  assert (M1 : match option_map (Rmult s) minp with Some p => Ok p | None => rmap (Rmult s) (Ok dm) end = Ok (s * match minp with Some p => p | None => dm end)) by (destruct minp; reflexivity).
  assert (M2 : match option_map (Rmult s) maxp with Some p => Ok p | None => (b0 <- rmap (fun v => s * v + d) (Ok b) ;; a0 <- rmap (fun v => s * v + d) (Ok a) ;; Ok (b0 - a0)) end = Ok (s * match maxp with Some p => p | None => b - a end)).
  { destruct maxp; cbn; [reflexivity|]. f_equal. ring. }
  rewrite M1, M2. assert (N1 : match minp with Some p => Ok p | None => Ok dm end = Ok (match minp with Some p => p | None => dm end)) by (destruct minp; reflexivity).
  assert (N2 : match maxp with Some p => Ok p | None => (b0 <- Ok b ;; a0 <- Ok a ;; Ok (b0 - a0)) end = Ok (match maxp with Some p => p | None => b - a end)) by (destruct maxp; reflexivity).
  rewrite N1, N2. clear M1 M2 N1 N2. set (pm := match minp with Some p => p | None => dm end). set (px := match maxp with Some p => p | None => b - a end). cbn [rbind rmap].
  destruct (Reqb ov 0) eqn:Eo; [reflexivity|]. assert (Ho : ov <> 0) by (intro Z; apply Reqb_true in Z; congruence).
  replace (s * dm / ov) with (s * (dm / ov)) by (field; exact Ho). rewrite (arange_aff s d Hs). set (dx := dm / ov) in *.
  destruct (arange a b dx) as [xx|e] eqn:Ex; [|reflexivity]. cbn [rmap rbind]. unfold interp. rewrite !map_length.
  destruct (Nat.eqb (length x) (length y)) eqn:El; [|reflexivity]. cbn [rbind]. apply Nat.eqb_eq in El. assert (NY : y <> []) by (destruct y; [discriminate El|discriminate]).
  assert (Yq : map (interp1 (map (fun t => s * t + d) x) (map (fun v => g * v + c) y)) (map (fun v => s * v + d) xx) = map (fun v => g * v + c) (map (interp1 x y) xx)).
  { rewrite !map_map. apply map_ext. intro q. exact (interp1_aff s d Hs g c x y q St NY). }
  rewrite Yq. set (yy := map (interp1 x y) xx). change {| nd_shape := [length yy]; nd_data := yy |} with (series yy).
  change {| nd_shape := [length (map (fun v => g * v + c) yy)]; nd_data := map (fun v => g * v + c) yy |} with (series (map (fun v => g * v + c) yy)). rewrite acf_affine by exact Hg.
  destruct (autocorr_function (series yy)) as [ac|e]; [|reflexivity]. cbn [rbind].
  assert (Hx : dx <> 0). { intro Z. unfold arange in Ex. rewrite Z, (proj2 (Reqb_true 0 0) eq_refl) in Ex. discriminate. }
  replace (sm * (s * pm) / (s * dx)) with (sm * pm / dx) by (field; lra).
  assert (Tq : map (fun v => v - nth 0 (map (fun t => s * t + d) x) 0) (map (fun v => s * v + d) xx) = map (Rmult s) (map (fun v => v - nth 0 x 0) xx)).
  { rewrite !map_map. apply map_ext. intro q. cbn [x map nth]. ring. }
  rewrite Tq. set (tau := map (fun v => v - nth 0 x 0) xx). clear Tq Yq.
  assert (Nt : forall i, nth i (map (Rmult s) tau) 0 = s * nth i tau 0). { intro i. rewrite <- (Rmult_0_r s) at 1. apply map_nth. }
  assert (Fq : forall l, filter (fun i => Rleb (s * pm) (nth i (map (Rmult s) tau) 0)) l = filter (fun i => Rleb pm (nth i tau 0)) l).
  { intro l. apply filter_ext. intro i. rewrite Nt. apply (Rleb_scal s Hs). }
  rewrite Fq. destruct (filter _ _) as [|i rest]; [reflexivity|]. rewrite Nt, (Rltb_scal s Hs). destruct (Rltb px (nth i tau 0)); [reflexivity|].
  destruct rest as [|j rest]; [reflexivity|]. set (i' := if flt _ _ then j else i). rewrite !Nt, (Rltb_scal s Hs). destruct (Rltb px (nth i' tau 0)); reflexivity.
Qed.
