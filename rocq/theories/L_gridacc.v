(** * Accuracy and stability of interpolation on a grid *)
From Coq Require Import Reals List Bool Arith ZArith Lra Lia.
From Coquelicot Require Import Coquelicot.
From Verif Require Import Num CoreOps Inst CoreFlux M_units M_kepler M_tensor M_simple M_ttv M_limbdark M_interpolated M_grid
  Spec_array Spec_light Spec_grid Spec_gridacc L_fl L_real L_shapeS L_grid1 L_grid2 L_grid3 L_grid4.
Import ListNotations.
Open Scope R_scope.
Local Notation length := List.length.

Lemma part_range g x i : grid_ok g -> belongs g x i -> nth 0 g 0 <= x <= List.last g 0 ->
  0 <= part g x i <= 1 /\ x = (1 - part g x i) * nth i g 0 + part g x i * nth (S i) g 0.
Proof.
  intros HG (B1 & B2 & B3) W. assert (G := gap g i HG B1). rewrite last_nth in W.
  assert (X : nth i g 0 <= x <= nth (S i) g 0).
  { split; [destruct B2 as [->|B2]; lra|]. destruct B3 as [B3|B3]; [|exact B3]. replace (S i) with (length g - 1)%nat by lia. lra. }
  unfold part. split; [|field; lra]. split.
  - apply Rdiv_le_0_compat; lra.
  - apply (Rmult_le_reg_r (nth (S i) g 0 - nth i g 0)); [exact G|]. unfold Rdiv. rewrite Rmult_assoc, Rinv_l by lra. lra.
Qed.
Lemma point_within g j : grid_ok g -> (j < length g)%nat -> nth 0 g 0 <= nth j g 0 <= List.last g 0.
Proof. intros HG H. rewrite last_nth. split; apply incr_le; try assumption; lia. Qed.
Lemma lerp_err (f : R -> R) y a b x L h : 0 <= y <= 1 -> x = (1 - y) * a + y * b -> a <= b -> b - a <= h -> 0 <= L ->
  Rabs (f a - f x) <= L * Rabs (a - x) -> Rabs (f b - f x) <= L * Rabs (b - x) -> Rabs ((1 - y) * f a + y * f b - f x) <= L * h / 2.
Proof.
  intros Y -> AB H L0 A B. set (x := (1 - y) * a + y * b) in *.
  replace ((1 - y) * f a + y * f b - f x) with ((1 - y) * (f a - f x) + y * (f b - f x)) by ring.
  eapply Rle_trans; [apply Rabs_triang|]. rewrite !Rabs_mult, (Rabs_right (1 - y)), (Rabs_right y) by lra.
  assert (E1 : a - x = - (y * (b - a))) by (unfold x; ring). assert (E2 : b - x = (1 - y) * (b - a)) by (unfold x; ring).
  assert (Y1 : 0 <= y * (b - a)) by (apply Rmult_le_pos; lra). assert (Y2 : 0 <= (1 - y) * (b - a)) by (apply Rmult_le_pos; lra).
  rewrite E1, Rabs_Ropp, (Rabs_right (y * (b - a))) in A by lra. rewrite E2, (Rabs_right ((1 - y) * (b - a))) in B by lra.
  assert (Q1 : (1 - y) * Rabs (f a - f x) <= (1 - y) * (L * (y * (b - a)))) by (apply Rmult_le_compat_l; lra).
  assert (Q2 : y * Rabs (f b - f x) <= y * (L * ((1 - y) * (b - a)))) by (apply Rmult_le_compat_l; lra).
  assert (Q3 : L * (b - a) * (2 * (y * (1 - y))) <= L * h * (/ 2)).
  { apply Rmult_le_compat; [apply Rmult_le_pos; lra|assert (0 <= y * (1 - y)) by (apply Rmult_le_pos; lra); lra|apply Rmult_le_compat_l; lra|].
    assert (0 <= (y - / 2) * (y - / 2)) by apply Rle_0_sqr. lra. }
  lra.
Qed.
(** a function with increasing derivative lies below its chords *)
Lemma chord (f f1 : R -> R) a b y : a <= b -> 0 <= y <= 1 -> (forall s, a <= s <= b -> is_derive f s (f1 s)) -> (forall s s', a <= s <= s' -> s' <= b -> f1 s <= f1 s') ->
  f ((1 - y) * a + y * b) <= (1 - y) * f a + y * f b.
Proof.
  intros AB Y D M. set (x := (1 - y) * a + y * b).
  assert (Ya : 0 <= y * (b - a)) by (apply Rmult_le_pos; lra). assert (Yb : 0 <= (1 - y) * (b - a)) by (apply Rmult_le_pos; lra).
  assert (Xa : a <= x) by (unfold x; lra). assert (Xb : x <= b) by (unfold x; lra).
  destruct (MVT_gen f a x f1) as (c1 & C1 & E1).
  { intros s Hs. rewrite Rmin_left, Rmax_right in Hs by lra. apply D. lra. }
  { intros s Hs. rewrite Rmin_left, Rmax_right in Hs by lra. apply derivable_continuous_pt. exists (f1 s). apply is_derive_Reals. apply D. lra. }
  destruct (MVT_gen f x b f1) as (c2 & C2 & E2).
  { intros s Hs. rewrite Rmin_left, Rmax_right in Hs by lra. apply D. lra. }
  { intros s Hs. rewrite Rmin_left, Rmax_right in Hs by lra. apply derivable_continuous_pt. exists (f1 s). apply is_derive_Reals. apply D. lra. }
  rewrite Rmin_left, Rmax_right in C1 by lra. rewrite Rmin_left, Rmax_right in C2 by lra.
  assert (Q := M c1 c2 ltac:(lra) ltac:(lra)).
  assert (F1 : f x - f a = f1 c1 * (y * (b - a))) by (rewrite E1; unfold x; ring). assert (F2 : f b - f x = f1 c2 * ((1 - y) * (b - a))) by (rewrite E2; unfold x; ring).
  assert (K : 0 <= (f1 c2 - f1 c1) * (y * ((1 - y) * (b - a)))) by (apply Rmult_le_pos; [lra|]; apply Rmult_le_pos; lra).
  assert (E : (1 - y) * f a + y * f b - f x = (f1 c2 - f1 c1) * (y * ((1 - y) * (b - a)))).
  { replace (f a) with (f x - f1 c1 * (y * (b - a))) by lra. replace (f b) with (f x + f1 c2 * ((1 - y) * (b - a))) by lra. ring. }
  lra.
Qed.
Lemma increasing (f1 f2 : R -> R) a b : (forall s, a <= s <= b -> is_derive f1 s (f2 s)) -> (forall s, a <= s <= b -> 0 <= f2 s) -> forall s s', a <= s <= s' -> s' <= b -> f1 s <= f1 s'.
Proof.
  intros D P s s' H H'. destruct (MVT_gen f1 s s' f2) as (c & C & E).
  { intros z Hz. rewrite Rmin_left, Rmax_right in Hz by lra. apply D. lra. }
  { intros z Hz. rewrite Rmin_left, Rmax_right in Hz by lra. apply derivable_continuous_pt. exists (f2 z). apply is_derive_Reals. apply D. lra. }
  rewrite Rmin_left, Rmax_right in C by lra. assert (Q := P c ltac:(lra)). assert (0 <= f2 c * (s' - s)) by (apply Rmult_le_pos; lra). lra.
Qed.
Lemma smooth_half (sg : R) (f f1 f2 : R -> R) a b y M : a <= b -> 0 <= y <= 1 -> (forall s, a <= s <= b -> is_derive f s (f1 s) /\ is_derive f1 s (f2 s) /\ 0 <= sg * f2 s + M) ->
  sg * f ((1 - y) * a + y * b) <= sg * ((1 - y) * f a + y * f b) + M / 2 * (y * (1 - y) * ((b - a) * (b - a))).
Proof.
  intros AB Y D. assert (C := chord (fun s => sg * f s + M / 2 * (s * s)) (fun s => sg * f1 s + M * s) a b y AB Y).
  cbv beta in C. assert (H : sg * f ((1 - y) * a + y * b) + M / 2 * (((1 - y) * a + y * b) * ((1 - y) * a + y * b)) <= (1 - y) * (sg * f a + M / 2 * (a * a)) + y * (sg * f b + M / 2 * (b * b))).
  { apply C.
    - intros s Hs. destruct (D s Hs) as (D1 & _ & _). evar_last; [apply (is_derive_plus (V := R_NormedModule)); [apply (is_derive_scal f s sg _ D1)|auto_derive; [exact I|reflexivity]]|]. cbn. unfold plus. cbn. field.
    - apply (increasing (fun s => sg * f1 s + M * s) (fun s => sg * f2 s + M)).
      + intros s Hs. destruct (D s Hs) as (_ & D2 & _). evar_last; [apply (is_derive_plus (V := R_NormedModule)); [apply (is_derive_scal f1 s sg _ D2)|auto_derive; [exact I|reflexivity]]|]. cbn. unfold plus. cbn. ring.
      + intros s Hs. apply D. exact Hs. }
  assert (E : M / 2 * ((1 - y) * (a * a) + y * (b * b) - ((1 - y) * a + y * b) * ((1 - y) * a + y * b)) = M / 2 * (y * (1 - y) * ((b - a) * (b - a)))) by ring. lra.
Qed.
Lemma smooth_err (f f1 f2 : R -> R) a b x y M h : 0 <= y <= 1 -> x = (1 - y) * a + y * b -> a <= b -> b - a <= h -> (forall s, a <= s <= b -> is_derive f s (f1 s) /\ is_derive f1 s (f2 s) /\ Rabs (f2 s) <= M) ->
  Rabs ((1 - y) * f a + y * f b - f x) <= M * (h * h) / 8.
Proof.
  intros Y -> AB H D.
  assert (M0 : 0 <= M) by (destruct (D a ltac:(lra)) as (_ & _ & Q); assert (Z := Rabs_pos (f2 a)); lra).
  assert (P1 := smooth_half 1 f f1 f2 a b y M AB Y). assert (P2 := smooth_half (-1) f f1 f2 a b y M AB Y).
  assert (H1 : forall s, a <= s <= b -> is_derive f s (f1 s) /\ is_derive f1 s (f2 s) /\ 0 <= 1 * f2 s + M).
  { intros s Hs. destruct (D s Hs) as (D1 & D2 & Q). split; [exact D1|]. split; [exact D2|]. apply Rabs_le_between in Q. lra. }
  assert (H2 : forall s, a <= s <= b -> is_derive f s (f1 s) /\ is_derive f1 s (f2 s) /\ 0 <= -1 * f2 s + M).
  { intros s Hs. destruct (D s Hs) as (D1 & D2 & Q). split; [exact D1|]. split; [exact D2|]. apply Rabs_le_between in Q. lra. }
  specialize (P1 H1). specialize (P2 H2).
  assert (K : M / 2 * (y * (1 - y) * ((b - a) * (b - a))) <= M / 2 * (/ 4 * (h * h))).
  { apply Rmult_le_compat_l; [lra|]. apply Rmult_le_compat; [apply Rmult_le_pos; lra|apply Rle_0_sqr| |].
    - assert (0 <= (y - / 2) * (y - / 2)) by apply Rle_0_sqr. lra.
    - apply Rmult_le_compat; lra. }
  apply Rabs_le. split; lra.
Qed.
Lemma lerp_shift g x i (u v : nat -> R) e : 0 <= part g x i <= 1 -> Rabs (u i - v i) <= e -> Rabs (u (S i) - v (S i)) <= e -> Rabs (lerp g x i u - lerp g x i v) <= e.
Proof.
  intros Y A B. unfold lerp. set (y := part g x i) in *. replace ((1 - y) * u i + y * u (S i) - ((1 - y) * v i + y * v (S i))) with ((1 - y) * (u i - v i) + y * (u (S i) - v (S i))) by ring.
  eapply Rle_trans; [apply Rabs_triang|]. rewrite !Rabs_mult, (Rabs_right (1 - y)), (Rabs_right y) by lra.
  assert ((1 - y) * Rabs (u i - v i) <= (1 - y) * e) by (apply Rmult_le_compat_l; lra). assert (y * Rabs (u (S i) - v (S i)) <= y * e) by (apply Rmult_le_compat_l; lra). lra.
Qed.
(** one axis at a time *)
Section acc.
  Context (axis_err : R -> R -> R) (fine : list (list R) -> (list R -> R) -> list R -> Prop)
    (fine_tail : forall g gs F L Ls a, fine (g :: gs) F (L :: Ls) -> nth 0 g 0 <= a <= List.last g 0 -> fine gs (fun l => F (a :: l)) Ls)
    (fine_head : forall g gs F L Ls h y a b x xs, fine (g :: gs) F (L :: Ls) -> within gs xs -> 0 <= y <= 1 -> x = (1 - y) * a + y * b -> a <= b -> b - a <= h ->
       nth 0 g 0 <= a -> b <= List.last g 0 -> Rabs ((1 - y) * F (a :: xs) + y * F (b :: xs) - F (x :: xs)) <= axis_err L h).
  Lemma gval_acc : forall gs, List.Forall grid_ok gs -> forall hs Ls F V xs, Forall2 spaced hs gs -> length Ls = length gs -> fine gs F Ls -> within gs xs ->
    (forall js, on_grid gs js -> V js = F (grid_point gs js)) -> Rabs (gval gs V xs - F xs) <= sum_over axis_err Ls hs.
  Proof using fine_tail fine_head.
    intros gs HG. induction HG as [|g gs Hg HG IH]; intros hs Ls F V xs SP LL FN W HV.
    - inversion W; subst. inversion SP; subst. destruct Ls; [|discriminate]. unfold gval. cbn. rewrite (HV [] ltac:(constructor)). cbn. rewrite Rminus_eq_0, Rabs_R0. lra.
    - inversion W as [|? x ? xs' W1 W2]; subst. inversion SP as [|h ? hs' ? SP1 SP2]; subst. destruct Ls as [|L Ls]; [discriminate|]. cbn [sum_over].
      rewrite gval_cons. assert (B := cellof_belongs g x Hg). set (i := cellof g x) in *. destruct (part_range g x i Hg B W1) as [Y X]. destruct B as (B1 & _).
      set (u := fun j => gval gs (fun js => V (j :: js)) xs'). set (v := fun j => F (nth j g 0 :: xs')).
      assert (U : forall j, (j < length g)%nat -> Rabs (u j - v j) <= sum_over axis_err Ls hs').
      { intros j Hj. apply (IH hs' Ls (fun l => F (nth j g 0 :: l)) (fun js => V (j :: js)) xs' SP2); [cbn in LL; lia| |exact W2|].
        - apply (fine_tail g gs F L Ls); [exact FN|]. apply point_within; assumption.
        - intros js Hjs. apply (HV (j :: js)). constructor; assumption. }
      assert (E1 := lerp_shift g x i u v _ Y (U i ltac:(lia)) (U (S i) B1)).
      assert (E2 := fine_head g gs F L Ls h (part g x i) (nth i g 0) (nth (S i) g 0) x xs' FN W2 Y X ltac:(apply incr_le; try assumption; lia) (SP1 i B1) (proj1 (point_within g i Hg ltac:(lia))) (proj2 (point_within g (S i) Hg B1))).
      fold v in E2. change ((1 - part g x i) * F (nth i g 0 :: xs') + part g x i * F (nth (S i) g 0 :: xs')) with (lerp g x i v) in E2.
      replace (lerp g x i u - F (x :: xs')) with ((lerp g x i u - lerp g x i v) + (lerp g x i v - F (x :: xs'))) by ring.
      eapply Rle_trans; [apply Rabs_triang|]. lra.
  Qed.
End acc.
Lemma steady_acc gs hs Ls F V xs : List.Forall grid_ok gs -> Forall2 spaced hs gs -> length Ls = length gs -> List.Forall (fun L => 0 <= L) Ls -> steady_along gs F Ls -> within gs xs ->
  (forall js, on_grid gs js -> V js = F (grid_point gs js)) -> Rabs (gval gs V xs - F xs) <= sum_over (fun L h => L * h / 2) Ls hs.
Proof.
  intros HG SP LL L0 ST W HV. apply (gval_acc (fun L h => L * h / 2) (fun gs F Ls => steady_along gs F Ls /\ List.Forall (fun L => 0 <= L) Ls)) with (F := F) (gs := gs); try assumption; [| |split; assumption].
  - intros g gs' F' L Ls' a [Q N] A. split; [|inversion N; assumption]. intros l1 l2 p q Wp Wq. exact (Q (a :: l1) l2 p q ltac:(constructor; assumption) ltac:(constructor; assumption)).
  - intros g gs' F' L Ls' h y a b x xs' [Q N] W' Y X AB Hh A B. inversion N; subst. assert (RX : nth 0 g 0 <= (1 - y) * a + y * b <= List.last g 0).
    { assert (0 <= y * (b - a)) by (apply Rmult_le_pos; lra). assert (0 <= (1 - y) * (b - a)) by (apply Rmult_le_pos; lra). lra. }
    apply (lerp_err (fun s => F' (s :: xs')) y a b _ L h Y eq_refl AB Hh); [assumption| |].
    + apply (Q [] xs' a _); constructor; try assumption; lra.
    + apply (Q [] xs' b _); constructor; try assumption; lra.
Qed.
Lemma smooth_acc gs hs Ms F V xs : List.Forall grid_ok gs -> Forall2 spaced hs gs -> length Ms = length gs -> smooth_along gs F Ms -> within gs xs ->
  (forall js, on_grid gs js -> V js = F (grid_point gs js)) -> Rabs (gval gs V xs - F xs) <= sum_over (fun M h => M * (h * h) / 8) Ms hs.
Proof.
  intros HG SP LL ST W HV. apply (gval_acc (fun M h => M * (h * h) / 8) smooth_along) with (F := F) (gs := gs); try assumption.
  - intros g gs' F' L Ls' a Q A l1 l2. destruct (Q (a :: l1) l2) as (f1 & f2 & D). exists f1, f2. intros s Ws. exact (D s ltac:(constructor; assumption)).
  - intros g gs' F' M Ms' h y a b x xs' Q W' Y X AB Hh A B. destruct (Q [] xs') as (f1 & f2 & D).
    apply (smooth_err (fun s => F' (s :: xs')) f1 f2 a b x y M h Y X AB Hh). intros s Hs. apply (D s). constructor; [lra|exact W'].
Qed.
Lemma gval_lin gs V W a b xs : gval gs (fun js => a * V js + b * W js) xs = a * gval gs V xs + b * gval gs W xs.
Proof.
  unfold gval. set (ys := fractions gs xs (cells gs xs)). clearbody ys. generalize (cells gs xs). intro is. revert ys V W.
  induction is as [|i is IH]; intros ys V W; [reflexivity|]. destruct ys as [|y ys]; [reflexivity|]. cbn [blend]. rewrite (IH ys (fun js => V (i :: js)) (fun js => W (i :: js))), (IH ys (fun js => V (S i :: js)) (fun js => W (S i :: js))). ring.
Qed.
Lemma gval_ext gs : List.Forall grid_ok gs -> forall V W xs, length xs = length gs -> (forall js, on_grid gs js -> V js = W js) -> gval gs V xs = gval gs W xs.
Proof.
  intro HG. induction HG as [|g gs Hg HG IH]; intros V W xs L H.
  - unfold gval. destruct xs; cbn; apply H; constructor.
  - destruct xs as [|x xs]; [discriminate|]. rewrite !gval_cons. destruct (cellof_belongs g x Hg) as (B & _). unfold lerp.
    rewrite (IH (fun js => V (cellof g x :: js)) (fun js => W (cellof g x :: js)) xs); [|cbn in L; lia|intros js J; apply H; constructor; [lia|exact J]].
    rewrite (IH (fun js => V (S (cellof g x) :: js)) (fun js => W (S (cellof g x) :: js)) xs); [reflexivity|cbn in L; lia|intros js J; apply H; constructor; [lia|exact J]].
Qed.
Lemma gval_stable gs : List.Forall grid_ok gs -> forall V W e xs, within gs xs -> (forall js, on_grid gs js -> Rabs (V js - W js) <= e) -> Rabs (gval gs V xs - gval gs W xs) <= e.
Proof.
  intro HG. induction HG as [|g gs Hg HG IH]; intros V W e xs Wi H.
  - inversion Wi; subst. unfold gval. cbn. apply H. constructor.
  - inversion Wi as [|? x ? xs' W1 W2]; subst. rewrite !gval_cons. assert (B := cellof_belongs g x Hg). destruct (part_range g x _ Hg B W1) as [Y _]. destruct B as (B & _).
    apply lerp_shift; [exact Y| |]; apply IH; try exact W2; intros js J; apply H; constructor; try exact J; lia.
Qed.
Lemma gval_mono gs : List.Forall grid_ok gs -> forall V W xs, within gs xs -> (forall js, on_grid gs js -> V js <= W js) -> gval gs V xs <= gval gs W xs.
Proof.
  intro HG. induction HG as [|g gs Hg HG IH]; intros V W xs Wi H.
  - inversion Wi; subst. unfold gval. cbn. apply H. constructor.
  - inversion Wi as [|? x ? xs' W1 W2]; subst. rewrite !gval_cons. assert (B := cellof_belongs g x Hg). destruct (part_range g x _ Hg B W1) as [Y _]. destruct B as (B & _).
    unfold lerp. apply Rplus_le_compat; apply Rmult_le_compat_l; try lra; apply IH; try exact W2; intros js J; apply H; constructor; try exact J; lia.
Qed.
Lemma within_len gs xs : within gs xs -> length xs = length gs.
Proof. intro W. symmetry. exact (forall2_len _ _ _ W). Qed.
Lemma grid_value gs values V coords s xs : List.Forall grid_ok gs -> grid_data gs values V -> test_points (length gs) s coords xs ->
  exists Y, regular_grid_interp (map (map Fin) gs) values coords None = Ok Y /\ ash Y = Ok s /\ forall i, inside s i -> aget Y i = Fin (gval gs V (xs i)).
Proof.
  intros HG D T. destruct (grid_scalar gs values V coords s xs HG D T None) as (Y & E & S & H). exists Y. split; [exact E|]. split; [exact S|]. intros i Hi. apply (proj2 (H i Hi)). left. reflexivity.
Qed.
(** ** theorems *)
Lemma grid_steady : forall gs values V coords s xs F hs Ls, List.Forall grid_ok gs -> grid_data gs values V -> test_points (length gs) s coords xs ->
  (forall js, on_grid gs js -> V js = F (grid_point gs js)) -> Forall2 spaced hs gs ->
  length Ls = length gs -> List.Forall (fun L => 0 <= L) Ls -> steady_along gs F Ls ->
  exists Y, regular_grid_interp (map (map Fin) gs) values coords None = Ok Y /\ ash Y = Ok s /\
    forall i, inside s i -> within gs (xs i) -> exists v, aget Y i = Fin v /\ Rabs (v - F (xs i)) <= sum_over (fun L h => L * h / 2) Ls hs.
Proof.
  intros gs values V coords s xs F hs Ls HG D T HV SP LL L0 ST. destruct (grid_value gs values V coords s xs HG D T) as (Y & E & Sh & H). exists Y. split; [exact E|]. split; [exact Sh|].
  intros i Hi W. exists (gval gs V (xs i)). split; [apply H, Hi|]. apply (steady_acc gs hs Ls F V (xs i)); assumption.
Qed.
Lemma grid_smooth : forall gs values V coords s xs F hs Ms, List.Forall grid_ok gs -> grid_data gs values V -> test_points (length gs) s coords xs ->
  (forall js, on_grid gs js -> V js = F (grid_point gs js)) -> Forall2 spaced hs gs -> length Ms = length gs -> smooth_along gs F Ms ->
  exists Y, regular_grid_interp (map (map Fin) gs) values coords None = Ok Y /\ ash Y = Ok s /\
    forall i, inside s i -> within gs (xs i) -> exists v, aget Y i = Fin v /\ Rabs (v - F (xs i)) <= sum_over (fun M h => M * (h * h) / 8) Ms hs.
Proof.
  intros gs values V coords s xs F hs Ms HG D T HV SP LL ST. destruct (grid_value gs values V coords s xs HG D T) as (Y & E & Sh & H). exists Y. split; [exact E|]. split; [exact Sh|].
  intros i Hi W. exists (gval gs V (xs i)). split; [apply H, Hi|]. apply (smooth_acc gs hs Ms F V (xs i)); assumption.
Qed.
Lemma grid_linear : forall gs values1 values2 values3 V1 V2 V3 coords s xs a b, List.Forall grid_ok gs -> grid_data gs values1 V1 -> grid_data gs values2 V2 -> grid_data gs values3 V3 ->
  (forall js, on_grid gs js -> V3 js = a * V1 js + b * V2 js) -> test_points (length gs) s coords xs ->
  exists Y1 Y2 Y3, regular_grid_interp (map (map Fin) gs) values1 coords None = Ok Y1 /\ regular_grid_interp (map (map Fin) gs) values2 coords None = Ok Y2 /\
    regular_grid_interp (map (map Fin) gs) values3 coords None = Ok Y3 /\
    forall i, inside s i -> exists v1 v2, aget Y1 i = Fin v1 /\ aget Y2 i = Fin v2 /\ aget Y3 i = Fin (a * v1 + b * v2).
Proof.
  intros gs values1 values2 values3 V1 V2 V3 coords s xs a b HG D1 D2 D3 HV T. destruct (grid_value gs values1 V1 coords s xs HG D1 T) as (Y1 & E1 & _ & H1). destruct (grid_value gs values2 V2 coords s xs HG D2 T) as (Y2 & E2 & _ & H2).
  destruct (grid_value gs values3 V3 coords s xs HG D3 T) as (Y3 & E3 & _ & H3). exists Y1, Y2, Y3. split; [exact E1|]. split; [exact E2|]. split; [exact E3|]. intros i Hi. exists (gval gs V1 (xs i)), (gval gs V2 (xs i)).
  split; [apply H1, Hi|]. split; [apply H2, Hi|]. rewrite H3 by exact Hi. f_equal. rewrite (gval_ext gs HG V3 (fun js => a * V1 js + b * V2 js)); [apply gval_lin| |exact HV]. apply (proj2 T). exact Hi.
Qed.
Lemma grid_order : forall gs values1 values2 V1 V2 coords s xs e, List.Forall grid_ok gs -> grid_data gs values1 V1 -> grid_data gs values2 V2 -> test_points (length gs) s coords xs ->
  exists Y1 Y2, regular_grid_interp (map (map Fin) gs) values1 coords None = Ok Y1 /\ regular_grid_interp (map (map Fin) gs) values2 coords None = Ok Y2 /\
    forall i, inside s i -> within gs (xs i) -> exists v1 v2, aget Y1 i = Fin v1 /\ aget Y2 i = Fin v2 /\
      ((forall js, on_grid gs js -> V1 js <= V2 js) -> v1 <= v2) /\ ((forall js, on_grid gs js -> Rabs (V1 js - V2 js) <= e) -> Rabs (v1 - v2) <= e).
Proof.
  intros gs values1 values2 V1 V2 coords s xs e HG D1 D2 T. destruct (grid_value gs values1 V1 coords s xs HG D1 T) as (Y1 & E1 & _ & H1). destruct (grid_value gs values2 V2 coords s xs HG D2 T) as (Y2 & E2 & _ & H2).
  exists Y1, Y2. split; [exact E1|]. split; [exact E2|]. intros i Hi W. exists (gval gs V1 (xs i)), (gval gs V2 (xs i)). split; [apply H1, Hi|]. split; [apply H2, Hi|].
  split; [apply gval_mono; assumption|apply gval_stable; assumption].
Qed.
