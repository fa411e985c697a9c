(** * Uniform distribution on the disk and on the triangle of limb-darkening laws *)
From Coq Require Import Reals Lra Psatz.
From Coquelicot Require Import Coquelicot.
From Verif Require Import Spec_prior L_area.
Open Scope R_scope.

Lemma sqrt_cont (f : R -> R) (x : R) : continuous f x -> continuous (fun a => sqrt (f a)) x.
Proof. intro C. apply (continuous_comp f sqrt); [exact C|]. apply continuous_sqrt. Qed.

Lemma zero_int a b : is_RInt (fun _ : R => 0) a b 0.
Proof. evar_last. apply (is_RInt_const (V := R_NormedModule) a b 0). unfold scal; cbn; unfold mult; cbn. ring. Qed.
(** the area of a disk *)
Lemma chord_cont r a : continuous (fun a => 2 * sqrt (r * r - a * a)) a.
Proof.
  apply (continuous_mult (K := R_AbsRing) (fun _ => 2)); [apply continuous_const|]. apply sqrt_cont.
  apply (ex_derive_continuous (fun a => r * r - a * a)). auto_derive. exact I.
Qed.
Lemma disk_area r : 0 <= r -> is_RInt (fun a => 2 * sqrt (r * r - a * a)) (- r) r (PI * (r * r)).
Proof.
  intro Hr. assert (P := PI_RGT_0). set (f := fun a => 2 * sqrt (r * r - a * a)).
  assert (S := is_RInt_comp (V := R_CompleteNormedModule) f (fun th => r * sin th) (fun th => r * cos th) (- (PI / 2)) (PI / 2)).
  assert (E : RInt f (- r) r = PI * (r * r)).
  { rewrite <- (is_RInt_unique (V := R_CompleteNormedModule) (fun th => scal (r * cos th) (f (r * sin th))) (- (PI / 2)) (PI / 2) (RInt f (- r) r)).
    2:{ replace (RInt f (- r) r) with (RInt f (r * sin (- (PI / 2))) (r * sin (PI / 2))) by (rewrite sin_neg, sin_PI2; f_equal; ring).
        apply S; intros; [apply chord_cont|]. split; [auto_derive; [exact I|ring]|].
        apply (ex_derive_continuous (fun th => r * cos th)). auto_derive. exact I. }
    rewrite (RInt_ext _ (fun th => r * r * (2 * (cos th * cos th)))).
    2:{ intros th Hth. rewrite Rmin_left, Rmax_right in Hth by lra. unfold f. unfold scal; cbn; unfold mult; cbn.
        assert (C0 := cos_ge_0 th ltac:(lra) ltac:(lra)). assert (Q := sin2_cos2 th). unfold Rsqr in Q.
        replace (r * r - r * sin th * (r * sin th)) with ((r * cos th) * (r * cos th)) by (transitivity (r * r * (cos th * cos th)); [ring|replace (cos th * cos th) with (1 - sin th * sin th) by lra; ring]).
        rewrite sqrt_square by (apply Rmult_le_pos; assumption). ring. }
    apply (is_RInt_unique (V := R_CompleteNormedModule)).
    replace (PI * (r * r)) with (minus (r * r * (PI / 2 + sin (PI / 2) * cos (PI / 2))) (r * r * (- (PI / 2) + sin (- (PI / 2)) * cos (- (PI / 2))))).
    2:{ unfold minus, plus, opp; cbn. rewrite sin_neg, cos_neg, cos_PI2. field. }
    apply (is_RInt_derive (V := R_CompleteNormedModule) (fun th => r * r * (th + sin th * cos th)) (fun th => r * r * (2 * (cos th * cos th)))).
    - intros th _. auto_derive; [exact I|]. assert (Q := sin2_cos2 th). unfold Rsqr in Q. replace (2 * (cos th * cos th)) with (1 + cos th * cos th - sin th * sin th) by lra. ring.
    - intros th _. apply (ex_derive_continuous (fun th => r * r * (2 * (cos th * cos th)))). auto_derive. exact I. }
  rewrite <- E. apply (RInt_correct (V := R_CompleteNormedModule)). apply (ex_RInt_continuous (V := R_CompleteNormedModule)). intros. apply chord_cont.
Qed.

(** slices of the disk *)
Definition half (a : R) : R := sqrt (1 - a * a).
Lemma slice G a : ex_RInt (G a) (- half a) (half a) ->
  is_RInt (fun b => G a (b * half a) * half a) (-1) 1 (RInt (G a) (- half a) (half a)).
Proof.
  intro E. apply (is_RInt_ext (fun b => scal (half a) (G a (half a * b + 0)))).
  { intros b _. unfold scal; cbn; unfold mult; cbn. replace (half a * b + 0) with (b * half a) by ring. ring. }
  apply (is_RInt_comp_lin (V := R_NormedModule)). replace (half a * -1 + 0) with (- half a) by ring. replace (half a * 1 + 0) with (half a) by ring.
  apply (RInt_correct (V := R_CompleteNormedModule)). exact E.
Qed.
Lemma disk_uniform G m : (forall u, -1 < u < 1 -> ex_RInt (G u) (- half u) (half u)) ->
  is_RInt (fun u => RInt (G u) (- half u) (half u)) (-1) 1 m ->
  weighs (-1) 1 (fun a _ => a) (fun a b => b * half a) (fun a _ => half a) G m.
Proof.
  intros E I. split.
  { intros a Ha. eexists. apply slice. apply E. exact Ha. }
  apply (is_RInt_ext (fun u => RInt (G u) (- half u) (half u))); [|exact I].
  intros a Ha. rewrite Rmin_left, Rmax_right in Ha by lra. symmetry. apply (is_RInt_unique (V := R_CompleteNormedModule)). apply slice. apply E. exact Ha.
Qed.

Definition within (r : R) (u v : R) : R := one_if (Rle_dec (u * u + v * v) (r * r)).
(** a slice of the smaller disk *)
Lemma within_slice r a : 0 <= r <= 1 -> -1 < a < 1 -> is_RInt (within r a) (- half a) (half a) (if Rlt_dec (a * a) (r * r) then 2 * sqrt (r * r - a * a) else 0).
Proof.
  intros Hr Ha. assert (H0 : 0 <= half a) by apply sqrt_pos. assert (HQ : half a * half a = 1 - a * a) by (apply sqrt_sqrt; nra).
  destruct (Rlt_dec (a * a) (r * r)) as [L|L].
  - set (c := sqrt (r * r - a * a)). assert (C0 : 0 <= c) by apply sqrt_pos. assert (CQ : c * c = r * r - a * a) by (apply sqrt_sqrt; lra).
    assert (CH : c <= half a). { unfold c, half. apply sqrt_le_1_alt. nra. }
    replace (2 * c) with (plus (plus 0 (2 * c)) 0) by (unfold plus; cbn; ring).
    apply (is_RInt_Chasles (V := R_NormedModule)) with c; [apply (is_RInt_Chasles (V := R_NormedModule)) with (- c)|].
    + apply (is_RInt_ext (fun _ => 0)). { intros b Hb. rewrite Rmin_left, Rmax_right in Hb by lra. unfold within, one_if. destruct (Rle_dec _ _); [|reflexivity]. nra. }
      apply zero_int.
    + apply (is_RInt_ext (fun _ => 1)). { intros b Hb. rewrite Rmin_left, Rmax_right in Hb by lra. unfold within, one_if. destruct (Rle_dec _ _); [reflexivity|]. nra. }
      replace (2 * c) with (scal (c - - c) 1) by (unfold scal; cbn; unfold mult; cbn; ring). apply (is_RInt_const (V := R_NormedModule)).
    + apply (is_RInt_ext (fun _ => 0)). { intros b Hb. rewrite Rmin_left, Rmax_right in Hb by lra. unfold within, one_if. destruct (Rle_dec _ _); [|reflexivity]. nra. }
      apply zero_int.
  - evar_last; [|exact (Rplus_0_r 0)]. apply (is_RInt_Chasles (V := R_NormedModule)) with 0.
    + apply (is_RInt_ext (fun _ => 0)). { intros b Hb. rewrite Rmin_left, Rmax_right in Hb by lra. unfold within, one_if. destruct (Rle_dec _ _); [|reflexivity]. nra. }
      apply zero_int.
    + apply (is_RInt_ext (fun _ => 0)). { intros b Hb. rewrite Rmin_left, Rmax_right in Hb by lra. unfold within, one_if. destruct (Rle_dec _ _); [|reflexivity]. nra. }
      apply zero_int.
Qed.
Lemma disk_within r : 0 <= r <= 1 -> weighs (-1) 1 (fun a _ => a) (fun a b => b * half a) (fun a _ => half a) (within r) (PI * (r * r)).
Proof.
  intro Hr. apply disk_uniform.
  { intros u Hu. eexists. apply within_slice; assumption. }
  replace (PI * (r * r)) with (plus (plus 0 (PI * (r * r))) 0) by (unfold plus; cbn; ring).
  assert (E : forall u, -1 < u < 1 -> RInt (within r u) (- half u) (half u) = (if Rlt_dec (u * u) (r * r) then 2 * sqrt (r * r - u * u) else 0)).
  { intros u Hu. apply (is_RInt_unique (V := R_CompleteNormedModule)). apply within_slice; assumption. }
  apply (is_RInt_Chasles (V := R_NormedModule)) with r; [apply (is_RInt_Chasles (V := R_NormedModule)) with (- r)|].
  - apply (is_RInt_ext (fun _ => 0)). { intros b Hb. rewrite Rmin_left, Rmax_right in Hb by lra. rewrite E by lra. destruct (Rlt_dec _ _); [nra|reflexivity]. }
    apply zero_int.
  - apply (is_RInt_ext (fun a => 2 * sqrt (r * r - a * a))). { intros b Hb. rewrite Rmin_left, Rmax_right in Hb by lra. rewrite E by lra. destruct (Rlt_dec _ _); [reflexivity|nra]. }
    apply disk_area. lra.
  - apply (is_RInt_ext (fun _ => 0)). { intros b Hb. rewrite Rmin_left, Rmax_right in Hb by lra. rewrite E by lra. destruct (Rlt_dec _ _); [nra|reflexivity]. }
    apply zero_int.
Qed.

(** the triangle of limb-darkening laws *)
Lemma cont_2d_int h a : (forall b, 0 <= b <= 1 -> continuity_2d_pt h a b) -> (forall a', ex_RInt (h a') 0 1) -> continuous (fun a => RInt (h a) 0 1) a.
Proof.
  intros C I. apply continuity_pt_filterlim. intros eps He.
  destruct (uniform_continuity_2d_1d' h 0 1 a C (mkposreal (eps / 2) ltac:(lra))) as (d & Hd). exists d. split; [apply cond_pos|].
  intros w [_ Hw]. unfold dist in *. cbn in *. unfold R_dist in *. assert (M := RInt_minus (V := R_CompleteNormedModule) (h w) (h a) 0 1 (I w) (I a)). change (RInt (fun x => h w x - h a x) 0 1 = RInt (h w) 0 1 - RInt (h a) 0 1) in M. apply (Rle_lt_trans _ (Rabs (RInt (fun x => h w x - h a x) 0 1))). { right. f_equal. symmetry. exact M. }
  eapply Rle_lt_trans. { apply (abs_RInt_le_const (fun x => h w x - h a x) 0 1 (eps / 2)); [lra|apply (ex_RInt_minus (V := R_NormedModule)); apply I|].
    intros b Hb. apply Rlt_le. apply (Hd b a b w); try lra.
    - assert (P := cond_pos d). lra. - apply Rabs_def2 in Hw. lra. - rewrite Rminus_eq_0, Rabs_R0. apply cond_pos. }
  lra.
Qed.
Lemma cont_2d_comp G X Y a b : (forall x y, continuity_2d_pt G x y) -> continuity_2d_pt X a b -> continuity_2d_pt Y a b -> continuity_2d_pt (fun a b => G (X a b) (Y a b)) a b.
Proof.
  intros CG CX CY eps. destruct (CG (X a b) (Y a b) eps) as (d & Hd). destruct (CX d) as (d1 & H1). destruct (CY d) as (d2 & H2).
  assert (P : 0 < Rmin d1 d2) by (apply Rmin_glb_lt; apply cond_pos). exists (mkposreal _ P). cbn. intros u v Hu Hv. apply Hd.
  - apply H1; eapply Rlt_le_trans; eauto; apply Rmin_l.
  - apply H2; eapply Rlt_le_trans; eauto; apply Rmin_r.
Qed.
Definition lx (a b : R) : R := sqrt a * (2 * b).
Definition ly (a b : R) : R := sqrt a * (1 - 2 * b).
Lemma lx_cont a b : continuity_2d_pt lx a b.
Proof.
  unfold lx. apply (continuity_2d_pt_mult (fun a _ => sqrt a) (fun _ b => 2 * b)).
  - apply (continuity_1d_2d_pt_comp sqrt (fun a _ => a)); [apply continuity_pt_filterlim, continuous_sqrt|apply continuity_2d_pt_id1].
  - apply continuity_2d_pt_mult; [apply continuity_2d_pt_const|apply continuity_2d_pt_id2].
Qed.
Lemma ly_cont a b : continuity_2d_pt ly a b.
Proof.
  unfold ly. apply (continuity_2d_pt_mult (fun a _ => sqrt a) (fun _ b => 1 - 2 * b)).
  - apply (continuity_1d_2d_pt_comp sqrt (fun a _ => a)); [apply continuity_pt_filterlim, continuous_sqrt|apply continuity_2d_pt_id1].
  - apply (continuity_2d_pt_minus (fun _ _ => 1) (fun _ b => 2 * b)); [apply continuity_2d_pt_const|]. apply continuity_2d_pt_mult; [apply continuity_2d_pt_const|apply continuity_2d_pt_id2].
Qed.
Lemma cont_slice h a : (forall b, continuity_2d_pt h a b) -> forall b, continuous (h a) b.
Proof.
  intros C b. apply continuity_pt_filterlim. intros eps He. destruct (C b (mkposreal eps He)) as (d & Hd). exists d. split; [apply cond_pos|].
  intros w [_ Hw]. unfold dist in *. cbn in *. unfold R_dist in *. apply Hd; [rewrite Rminus_eq_0, Rabs_R0; apply cond_pos|exact Hw].
Qed.
Lemma law_uniform G : (forall x y, continuity_2d_pt G x y) ->
  weighs 0 1 lx ly (fun _ _ => 1) G (RInt (fun s => RInt (fun v => G v (s - v)) 0 (2 * s)) 0 1).
Proof.
  intro CG. set (h := fun a b => G (lx a b) (ly a b)).
  assert (Ch : forall a b, continuity_2d_pt h a b). { intros a b. apply (cont_2d_comp G lx ly); [exact CG|apply lx_cont|apply ly_cont]. }
  assert (Ih : forall a, ex_RInt (h a) 0 1). { intro a. apply (ex_RInt_continuous (V := R_CompleteNormedModule)). intros b _. apply cont_slice. intro. apply Ch. }
  set (F := fun a => RInt (h a) 0 1).
  assert (CF : forall a, continuous F a). { intro a. apply cont_2d_int; [intros; apply Ch|exact Ih]. }
  split.
  { intros a _. apply (ex_RInt_ext (h a)); [|apply Ih]. intros b _. unfold h. eqR. ring. }
  apply (is_RInt_ext F). { intros a _. unfold F. apply RInt_ext. intros b _. unfold h. eqR. ring. }
  assert (S := is_RInt_comp (V := R_CompleteNormedModule) F (fun s => s * s) (fun s => 2 * s) 0 1).
  replace (RInt (fun s => RInt (fun v => G v (s - v)) 0 (2 * s)) 0 1) with (RInt F 0 1).
  { apply (RInt_correct (V := R_CompleteNormedModule)). apply (ex_RInt_continuous (V := R_CompleteNormedModule)). intros; apply CF. }
  transitivity (RInt (fun s => scal (2 * s) (F (s * s))) 0 1).
  { symmetry. apply (is_RInt_unique (V := R_CompleteNormedModule)). replace (RInt F 0 1) with (RInt F (0 * 0) (1 * 1)) by (f_equal; ring).
    apply S; intros; [apply CF|]. split; [auto_derive; [exact I|ring]|]. apply (ex_derive_continuous (fun s => 2 * s)). auto_derive. exact I. }
  apply RInt_ext. intros s Hs. rewrite Rmin_left, Rmax_right in Hs by lra. unfold F, h, lx, ly. rewrite sqrt_square by lra.
  set (k := fun v => G v (s - v)).
  assert (Ck : forall v, continuous k v).
  { intro v. apply continuity_pt_filterlim. intros eps He. destruct (CG v (s - v) (mkposreal eps He)) as (d & Hd). exists d. split; [apply cond_pos|].
    intros w [_ Hw]. unfold dist in *. cbn in *. unfold R_dist in *. unfold k. apply Hd; [exact Hw|]. replace (s - w - (s - v)) with (- (w - v)) by ring. rewrite Rabs_Ropp. exact Hw. }
  assert (L := is_RInt_comp_lin (V := R_NormedModule) k (2 * s) 0 0 1 (RInt k 0 (2 * s))).
  replace (2 * s * 0 + 0) with 0 in L by ring. replace (2 * s * 1 + 0) with (2 * s) in L by ring.
  assert (L' := L (RInt_correct (V := R_CompleteNormedModule) k 0 (2 * s) (ex_RInt_continuous (V := R_CompleteNormedModule) k 0 (2 * s) (fun z _ => Ck z)))).
  rewrite <- (is_RInt_unique (V := R_CompleteNormedModule) _ _ _ _ L').
  rewrite (RInt_ext (fun y => scal (2 * s) (k (2 * s * y + 0))) (fun y => scal (2 * s) (G (s * (2 * y)) (s * (1 - 2 * y))))).
  2:{ intros y _. unfold k. replace (2 * s * y + 0) with (s * (2 * y)) by ring. replace (s - s * (2 * y)) with (s * (1 - 2 * y)) by ring. reflexivity. }
  symmetry. apply (RInt_scal (V := R_CompleteNormedModule)).
  apply (ex_RInt_ext (h (s * s))); [|apply Ih]. intros y _. unfold h, lx, ly. rewrite sqrt_square by lra. reflexivity.
Qed.
(** how much goes to the laws that darken the limb by no more than S *)
Lemma law_within s : 0 <= s <= 1 -> weighs 0 1 lx ly (fun _ _ => 1) (fun u1 u2 => one_if (Rle_dec (u1 + u2) s)) (s * s).
Proof.
  intro Hs. assert (C : forall c : R, is_RInt (fun _ : R => c) 0 1 c). { intro c. evar_last. { apply (is_RInt_const (V := R_NormedModule) 0 1 c). } unfold scal; cbn; unfold mult; cbn. ring. }
  assert (E : forall a, is_RInt (fun b => one_if (Rle_dec (lx a b + ly a b) s) * 1) 0 1 (one_if (Rle_dec (sqrt a) s))).
  { intro a. apply (is_RInt_ext (fun _ => one_if (Rle_dec (sqrt a) s))); [|apply C]. intros b _. unfold lx, ly. replace (sqrt a * (2 * b) + sqrt a * (1 - 2 * b)) with (sqrt a) by ring. eqR. ring. }
  split. { intros a _. eexists. apply E. }
  apply (is_RInt_ext (fun a => one_if (Rle_dec (sqrt a) s))). { intros a _. symmetry. apply (is_RInt_unique (V := R_CompleteNormedModule)). apply E. }
  replace (s * s) with (plus (scal (s * s - 0) 1) (scal (1 - s * s) 0)) by (unfold plus, scal; cbn; unfold mult; cbn; ring).
  apply (is_RInt_Chasles (V := R_NormedModule)) with (s * s).
  - apply (is_RInt_ext (fun _ => 1)); [|apply (is_RInt_const (V := R_NormedModule))]. intros a Ha. rewrite Rmin_left, Rmax_right in Ha by nra. unfold one_if. destruct (Rle_dec _ _) as [|n]; [reflexivity|]. exfalso. apply n.
    rewrite <- (sqrt_square s) by lra. apply sqrt_le_1_alt. lra.
  - apply (is_RInt_ext (fun _ => 0)); [|apply (is_RInt_const (V := R_NormedModule))]. intros a Ha. rewrite Rmin_left, Rmax_right in Ha by nra. unfold one_if. destruct (Rle_dec _ _) as [n|]; [|reflexivity]. exfalso.
    assert (Q := sqrt_sqrt a ltac:(nra)). assert (Q0 := sqrt_pos a). nra.
Qed.
Lemma is_triangle G k m : (forall x y, continuity_2d_pt G x y) -> (forall s, 0 < s < 1 -> is_RInt (fun v => G v (s - v)) 0 (2 * s) (k s)) -> is_RInt k 0 1 m ->
  weighs 0 1 lx ly (fun _ _ => 1) G m.
Proof.
  intros CG Hk Hm. replace m with (RInt (fun s => RInt (fun v => G v (s - v)) 0 (2 * s)) 0 1); [apply law_uniform; exact CG|].
  rewrite (RInt_ext _ k). { apply (is_RInt_unique (V := R_CompleteNormedModule)). exact Hm. }
  intros s Hs. rewrite Rmin_left, Rmax_right in Hs by lra. apply (is_RInt_unique (V := R_CompleteNormedModule)). apply Hk. exact Hs.
Qed.
Lemma is_RInt_ftc F f a b : (forall x, is_derive F x (f x)) -> (forall x, ex_derive f x) -> is_RInt f a b (F b - F a).
Proof. intros D C. apply (is_RInt_derive (V := R_CompleteNormedModule) F f); intros; [apply D|]. apply (ex_derive_continuous f). apply C. Qed.
Lemma law_mean1 : weighs 0 1 lx ly (fun _ _ => 1) (fun u1 _ => u1) (2 / 3).
Proof.
  apply is_triangle with (k := fun s => 2 * (s * s)).
  - intros. apply continuity_2d_pt_id1.
  - intros s _. replace (2 * (s * s)) with ((2 * s) * (2 * s) / 2 - 0 * 0 / 2) by field. apply (is_RInt_ftc (fun v => v * v / 2) (fun v => v)); intros; auto_derive; try exact I. field.
  - replace (2 / 3) with (2 * (1 * 1 * 1) / 3 - 2 * (0 * 0 * 0) / 3) by field. apply (is_RInt_ftc (fun v => 2 * (v * v * v) / 3) (fun v => 2 * (v * v))); intros; auto_derive; try exact I. field.
Qed.
Lemma law_mean2 : weighs 0 1 lx ly (fun _ _ => 1) (fun _ u2 => u2) 0.
Proof.
  apply is_triangle with (k := fun s => 0).
  - intros. apply continuity_2d_pt_id2.
  - intros s _. replace 0 with ((s * (2 * s) - (2 * s) * (2 * s) / 2) - (s * 0 - 0 * 0 / 2)) at 2 by field. apply (is_RInt_ftc (fun v => s * v - v * v / 2) (fun v => s - v)); intros; auto_derive; try exact I. field.
  - apply zero_int.
Qed.
Lemma law_total : weighs 0 1 lx ly (fun _ _ => 1) (fun _ _ => 1) 1.
Proof.
  apply is_triangle with (k := fun s => 2 * s).
  - intros. apply continuity_2d_pt_const.
  - intros s _. replace (2 * s) with (2 * s - 0) at 2 by ring. apply (is_RInt_ftc (fun v => v) (fun v => 1)); intros; auto_derive; try exact I. reflexivity.
  - replace 1 with (1 * 1 - 0 * 0) at 2 by ring. apply (is_RInt_ftc (fun v => v * v) (fun v => 2 * v)); intros; auto_derive; try exact I. ring.
Qed.
(** the interval of impact parameters *)
Lemma interval_uniform G k : 0 < 1 + k -> ex_RInt G 0 (1 + k) -> is_RInt (fun a => G (a * (1 + k))) 0 1 (RInt G 0 (1 + k) / (1 + k)).
Proof.
  intros Hk E. assert (L := is_RInt_comp_lin (V := R_NormedModule) G (1 + k) 0 0 1 (RInt G 0 (1 + k))).
  replace ((1 + k) * 0 + 0) with 0 in L by ring. replace ((1 + k) * 1 + 0) with (1 + k) in L by ring.
  assert (L' := L (RInt_correct (V := R_CompleteNormedModule) G _ _ E)).
  apply (is_RInt_scal (V := R_NormedModule) _ _ _ (/ (1 + k))) in L'. unfold scal in L'; cbn in L'; unfold mult in L'; cbn in L'.
  replace (RInt G 0 (1 + k) / (1 + k)) with (/ (1 + k) * RInt G 0 (1 + k)) by (unfold Rdiv; ring).
  eapply (is_RInt_ext (V := R_NormedModule)); [|exact L']. intros y _. cbn. replace ((1 + k) * y + 0) with (y * (1 + k)) by ring. field. lra.
Qed.
