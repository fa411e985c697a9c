(** * Grid interpolation: theorems about regular_grid_interp *)
From Coq Require Import Reals List Bool Arith ZArith Lra Lia FunctionalExtensionality.
From Verif Require Import Num CoreOps Inst CoreFlux M_units M_kepler M_tensor M_simple M_ttv M_limbdark M_interpolated M_grid
  Spec_array Spec_light Spec_grid L_fl L_real L_shapeS L_grid1 L_grid2 L_grid3.
Import ListNotations.
Open Scope R_scope.

Lemma fold_shape {A} (S : shape) (e : A) L : fold_left (fun sh _ => bcr sh (Ok S)) (e :: L) (Ok S) = Ok S.
Proof.
  cbn [fold_left bcr]. rewrite bc_refl. induction L as [|a L IH]; [reflexivity|]. cbn [fold_left bcr]. rewrite bc_refl. exact IH.
Qed.
Lemma fold_shape2 {A} (S0 : shape) (B : res shape) (S1 : shape) (e : A) L : B = Ok S1 -> bcr (Ok S0) (Ok S1) = Ok S1 ->
  fold_left (fun sh _ => bcr sh B) (e :: L) (Ok S0) = Ok S1.
Proof.
  intros -> E. cbn [fold_left]. rewrite E. induction L as [|a L IH]; [reflexivity|]. cbn [fold_left bcr]. rewrite bc_refl. exact IH.
Qed.
Lemma grid_scalar gs values V coords s xs : List.Forall grid_ok gs -> grid_data gs values V -> test_points (length gs) s coords xs ->
  forall fill, exists Y, regular_grid_interp (map (map Fin) gs) values coords fill = Ok Y /\ ash Y = Ok s /\
    forall i, inside s i ->
      (forall f, fill = Some f -> filled gs (xs i) -> aget Y i = f) /\
      (fill = None \/ ~ filled gs (xs i) -> aget Y i = Fin (gval gs V (xs i))).
Proof.
  intros HG [SV HV] HT fill.
  destruct (grid_core gs [] values coords s xs HG SV HT) as (r & o & ER & SO & (e & L & SR) & VR).
  assert (SB : bcr (Ok ([] ++ s)) (Ok s) = Ok s) by (cbn [bcr app]; rewrite bc_refl; reflexivity).
  rewrite SB in SR. cbn [app] in SR. assert (SR' := eq_trans SR (fold_shape s e L)). clear SR. rename SR' into SR.
  assert (VI : forall i, inside s i -> (aget o i = true <-> filled gs (xs i)) /\ aget r i = Fin (gval gs V (xs i))).
  { intros i Hi. destruct HT as [_ HT]. destruct (HT i Hi) as [L1 L2].
    destruct (VR i (xs i) (xs i) L1 L1) as [V1 V2].
    { intros k Hk. replace (fun ax => i (ax + length (@nil nat))%nat) with i by (extensionality ax; cbn [length]; rewrite Nat.add_0_r; reflexivity). apply L2. exact Hk. }
    { exact L2. }
    split; [exact V1|]. unfold gval. rewrite <- fracs_fractions. apply V2.
    intros js Hj. rewrite <- (HV js Hj). f_equal. extensionality ax. cbn [length]. rewrite Nat.sub_0_r. reflexivity. }
  rewrite (ER fill). cbv zeta. destruct fill as [f|].
  - assert (S' : ash (nsw o (alit f) r) = Ok s).
    { cbn [nsw NumT amap3 ash alit]. rewrite SO, SR. cbn [bcr bc]. rewrite bc_refl. reflexivity. }
    rewrite S'. cbn [rmap rbind]. eexists. split; [reflexivity|]. split; [exact S'|].
    intros i Hi. destruct (VI i Hi) as [V1 V2]. cbn [nsw NumT amap3 aget alit]. split.
    + intros f' E F. injection E as <-. apply V1 in F. rewrite F. reflexivity.
    + intros [E|N]; [discriminate E|]. destruct (aget o i); [exfalso; apply N, V1; reflexivity|exact V2].
  - rewrite SR. cbn [rmap rbind]. eexists. split; [reflexivity|]. split; [exact SR|]. intros i Hi. split; [discriminate|]. intros _. apply (VI i Hi).
Qed.

Lemma gval_multilinear gs V xs is F : List.Forall grid_ok gs -> length xs = length gs -> in_cell gs xs is -> multilinear (length gs) F ->
  (forall js, corner is js -> V js = F (grid_point gs js)) -> gval gs V xs = F xs.
Proof.
  intros HG L HI HF HV. unfold gval. rewrite (blend_cell gs xs _ is HG (cells_in gs xs HG L) HI). apply blend_multilinear; assumption.
Qed.
Lemma corner_on gs xs is js : in_cell gs xs is -> corner is js -> on_grid gs js.
Proof.
  intro H. revert js. induction H as [|g gs x xs i is B H IH]; intros js HC; inversion HC; subst; constructor.
  - destruct B as [B _]. match goal with E : _ \/ _ |- _ => destruct E; subst end; lia.
  - apply IH. assumption.
Qed.

Lemma grid_cell : forall gs values V coords s xs, List.Forall grid_ok gs -> grid_data gs values V -> test_points (length gs) s coords xs ->
  exists Y, regular_grid_interp (map (map Fin) gs) values coords None = Ok Y /\ ash Y = Ok s /\
    forall i is F, inside s i -> in_cell gs (xs i) is -> multilinear (length gs) F ->
      (forall js, corner is js -> V js = F (grid_point gs js)) -> aget Y i = Fin (F (xs i)).
Proof.
  intros gs values V coords s xs HG HV HT. destruct (grid_scalar gs values V coords s xs HG HV HT None) as (Y & EY & SY & VY).
  exists Y. split; [exact EY|]. split; [exact SY|]. intros i is F Hi HI HF HC.
  destruct (VY i Hi) as [_ V2]. rewrite V2 by (left; reflexivity). f_equal.
  apply (gval_multilinear gs V (xs i) is F); try assumption. destruct HT as [_ HT]. apply (HT i Hi).
Qed.
Lemma grid_exact : forall gs values V coords s xs F, List.Forall grid_ok gs -> grid_data gs values V -> test_points (length gs) s coords xs ->
  multilinear (length gs) F -> (forall js, on_grid gs js -> V js = F (grid_point gs js)) ->
  exists Y, regular_grid_interp (map (map Fin) gs) values coords None = Ok Y /\ ash Y = Ok s /\ forall i, inside s i -> aget Y i = Fin (F (xs i)).
Proof.
  intros gs values V coords s xs F HG HV HT HF HVF. destruct (grid_cell gs values V coords s xs HG HV HT) as (Y & EY & SY & VY).
  exists Y. split; [exact EY|]. split; [exact SY|]. intros i Hi.
  assert (HI : in_cell gs (xs i) (cells gs (xs i))) by (apply cells_in; [exact HG|]; destruct HT as [_ HT]; apply (HT i Hi)).
  apply (VY i _ F Hi HI HF). intros js Hj. apply HVF. apply (corner_on _ _ _ _ HI Hj).
Qed.
Lemma gval_data gs V js : List.Forall grid_ok gs -> on_grid gs js -> gval gs V (grid_point gs js) = V js.
Proof.
  intros HG HJ. revert V. induction HJ as [|g j gs js Hj HJ IH]; intro V; [reflexivity|].
  inversion HG; subst. cbn [grid_point]. rewrite gval_cons.
  set (u := fun k => gval gs (fun js0 => V (k :: js0)) (grid_point gs js)).
  assert (E : forall k, u k = V (k :: js)) by (intro k; apply IH; assumption).
  match goal with H : grid_ok g |- _ => rename H into Hg end.
  assert (B := cellof_belongs g (nth j g 0) Hg). destruct Hg as [HL HI].
  assert (Hg : grid_ok g) by (split; assumption).
  destruct j as [|j].
  - rewrite (lerp_any g _ _ 0 u Hg B).
    + unfold lerp, part. rewrite !E. field. assert (Q := gap g 0 Hg ltac:(lia)). lra.
    + split; [lia|]. split; [left; reflexivity|right]. apply Rlt_le. apply HI; lia.
  - rewrite (lerp_any g _ _ j u Hg B).
    + unfold lerp, part. rewrite !E. field. assert (Q := gap g j Hg Hj). lra.
    + split; [exact Hj|]. split; [right; apply Rlt_le, HI; lia|right; lra].
Qed.
Lemma grid_reproduces : forall gs values V coords s xs, List.Forall grid_ok gs -> grid_data gs values V -> test_points (length gs) s coords xs ->
  exists Y, regular_grid_interp (map (map Fin) gs) values coords None = Ok Y /\ ash Y = Ok s /\
    forall i js, inside s i -> on_grid gs js -> xs i = grid_point gs js -> aget Y i = Fin (V js).
Proof.
  intros gs values V coords s xs HG HV HT. destruct (grid_scalar gs values V coords s xs HG HV HT None) as (Y & EY & SY & VY).
  exists Y. split; [exact EY|]. split; [exact SY|]. intros i js Hi HJ E. destruct (VY i Hi) as [_ V2]. rewrite V2 by (left; reflexivity).
  rewrite E, gval_data by assumption. reflexivity.
Qed.
Lemma grid_convex : forall gs values V coords s xs, List.Forall grid_ok gs -> grid_data gs values V -> test_points (length gs) s coords xs ->
  exists Y, regular_grid_interp (map (map Fin) gs) values coords None = Ok Y /\ ash Y = Ok s /\
    forall i is lo hi, inside s i -> within gs (xs i) -> in_cell gs (xs i) is -> (forall js, corner is js -> lo <= V js <= hi) ->
      exists v, aget Y i = Fin v /\ lo <= v <= hi.
Proof.
  intros gs values V coords s xs HG HV HT. destruct (grid_scalar gs values V coords s xs HG HV HT None) as (Y & EY & SY & VY).
  exists Y. split; [exact EY|]. split; [exact SY|]. intros i is lo hi Hi HW HI HB. destruct (VY i Hi) as [_ V2].
  exists (gval gs V (xs i)). split; [apply V2; left; reflexivity|].
  unfold gval. rewrite (blend_cell gs (xs i) _ is HG (cells_in gs (xs i) HG (proj1 (proj2 HT i Hi))) HI). apply blend_convex; assumption.
Qed.
Lemma grid_continuous : forall gs values V, List.Forall grid_ok gs -> grid_data gs values V ->
  exists G, (forall coords s xs, test_points (length gs) s coords xs ->
      exists Y, regular_grid_interp (map (map Fin) gs) values coords None = Ok Y /\ ash Y = Ok s /\ forall i, inside s i -> aget Y i = Fin (G (xs i))) /\
    forall xs eps, length xs = length gs -> 0 < eps -> exists del, 0 < del /\ forall ys, closer del xs ys -> Rabs (G xs - G ys) < eps.
Proof.
  intros gs values V HG HV. exists (gval gs V). split.
  - intros coords s xs HT. destruct (grid_scalar gs values V coords s xs HG HV HT None) as (Y & EY & SY & VY).
    exists Y. split; [exact EY|]. split; [exact SY|]. intros i Hi. apply (VY i Hi). left; reflexivity.
  - apply gval_continuous. exact HG.
Qed.
Lemma grid_fill : forall gs values V coords s xs f, List.Forall grid_ok gs -> grid_data gs values V -> test_points (length gs) s coords xs ->
  exists Y Z, regular_grid_interp (map (map Fin) gs) values coords (Some f) = Ok Y /\ ash Y = Ok s /\
    regular_grid_interp (map (map Fin) gs) values coords None = Ok Z /\ ash Z = Ok s /\
    forall i, inside s i -> (filled gs (xs i) -> aget Y i = f) /\ (~ filled gs (xs i) -> aget Y i = aget Z i).
Proof.
  intros gs values V coords s xs f HG HV HT. destruct (grid_scalar gs values V coords s xs HG HV HT (Some f)) as (Y & EY & SY & VY).
  destruct (grid_scalar gs values V coords s xs HG HV HT None) as (Z & EZ & SZ & VZ). exists Y, Z. do 4 (split; [assumption|]).
  intros i Hi. destruct (VY i Hi) as [Y1 Y2]. destruct (VZ i Hi) as [_ Z2]. split; [apply Y1; reflexivity|].
  intro N. rewrite Y2, Z2 by tauto. reflexivity.
Qed.
(** the lower edge of the grid *)
Lemma grid_edge : forall gs values V coords s xs f i n, List.Forall grid_ok gs -> grid_data gs values V -> test_points (length gs) s coords xs ->
  inside s i -> within gs (xs i) -> (n < length gs)%nat -> nth n (xs i) 0 = nth 0 (nth n gs []) 0 ->
  exists Y, regular_grid_interp (map (map Fin) gs) values coords (Some f) = Ok Y /\ aget Y i = f.
Proof.
  intros gs values V coords s xs f i n HG HV HT Hi HW Hn E.
  destruct (grid_fill gs values V coords s xs f HG HV HT) as (Y & Z & EY & _ & _ & _ & H). exists Y. split; [exact EY|].
  apply (H i Hi). exists n. split; [exact Hn|]. left. lra.
Qed.
Lemma evaluate_same : forall points values fill t, RegularGridInterpolator_evaluate points values fill t = regular_grid_interp points values t fill.
Proof. reflexivity. Qed.

(** ** vector-valued grids *)
Lemma fold_err {A} e0 (L : list A) (B : res shape) : fold_left (fun sh _ => bcr sh B) L (Err e0) = Err e0.
Proof. induction L as [|a L IH]; [reflexivity|]. cbn [fold_left bcr]. destruct B; exact IH. Qed.
Lemma grid_vector_error : forall gs q N values V coords xs, List.Forall grid_ok gs -> grid_vectors gs q values V -> test_points (length gs) [N] coords xs ->
  q <> N -> q <> 1%nat -> N <> 1%nat -> regular_grid_interp (map (map Fin) gs) values coords None = Err ShapeErr.
Proof.
  intros gs q N values V coords xs HG (SV & _ & _) HT H1 H2 H3.
  destruct (grid_core gs [q] values coords [N] xs HG SV HT) as (r & o & ER & SO & (e & L & SR) & VR).
  rewrite (ER None). cbv zeta. rewrite SR. cbn [app bcr bc fold_left].
  destruct (Nat.eqb_spec q N); [contradiction|]. destruct (Nat.eqb_spec q 1); [contradiction|]. destruct (Nat.eqb_spec N 1); [contradiction|].
  rewrite fold_err. reflexivity.
Qed.
Lemma grid_vector_cells : forall gs q N values V coords xs, List.Forall grid_ok gs -> grid_vectors gs q values V -> test_points (length gs) [N] coords xs -> twf coords ->
  q = N \/ q = 1%nat \/ N = 1%nat -> (0 < q)%nat -> (0 < N)%nat ->
  exists Y, regular_grid_interp (map (map Fin) gs) values coords None = Ok Y /\ ash Y = Ok [Nat.max q N; N] /\
    forall m c, (m < N)%nat -> (c < Nat.max q N)%nat ->
      aget Y (at_tp m c) = Fin (blend (cells gs (xs (at_time m))) (fractions gs (xs (at_time (coord N c))) (cells gs (xs (at_time (coord N c))))) (fun js => V js (coord q c))).
Proof.
  intros gs q N values V coords xs HG (SV & WV & HV) HT HC Hqn Hq HN.
  destruct (grid_core gs [q] values coords [N] xs HG SV HT) as (r & o & ER & SO & (e & L & SR) & VR).
  assert (SB : bcr (Ok ([q] ++ [N])) (Ok [N]) = Ok [Nat.max q N; N]).
  { cbn [app bcr bc]. destruct (Nat.eqb_spec q N) as [->|N1]; [rewrite Nat.max_id; reflexivity|].
    destruct (Nat.eqb_spec q 1) as [->|N2]; [rewrite Nat.max_r by lia; reflexivity|].
    destruct (Nat.eqb_spec N 1) as [->|N3]; [rewrite Nat.max_l by lia; reflexivity|]. lia. }
  assert (SR' : ash r = Ok [Nat.max q N; N]).
  { refine (eq_trans SR (fold_shape2 _ _ _ e L SB _)).
    { cbn [bcr bc app]. rewrite Nat.eqb_refl. destruct (Nat.eqb_spec q (Nat.max q N)) as [E1|N1]; [rewrite <- E1; reflexivity|].
      destruct (Nat.eqb_spec q 1) as [E2|N2]; [reflexivity|]. destruct (Nat.eqb_spec (Nat.max q N) 1); lia. } }
  rewrite (ER None). cbv zeta. rewrite SR'. cbn [rmap rbind]. exists r. split; [reflexivity|]. split; [exact SR'|].
  intros m c Hm Hc. destruct HT as [SC HT].
  assert (Hc' : (coord N c < N)%nat) by (unfold coord; destruct (Nat.eqb_spec N 1); lia).
  assert (I1 : forall m, (m < N)%nat -> inside [N] (at_time m)) by (intros k Hk [|d] Hd; cbn in *; lia).
  destruct (HT _ (I1 m Hm)) as [L1 C1]. destruct (HT _ (I1 _ Hc')) as [L2 C2].
  rewrite <- fracs_fractions.
  destruct (VR (at_tp m c) (xs (at_time m)) (xs (at_time (coord N c))) L1 L2) as [_ V2].
  - intros k Hk. rewrite <- (C1 k Hk). f_equal. extensionality d. destruct d as [|[|d]]; cbn [cons_ix at_tp at_time length Nat.add]; try reflexivity.
    replace (d + 1)%nat with (S d) by lia. reflexivity.
  - intros k Hk. rewrite <- (C2 k Hk). apply (HC _ SC). intros d Hd.
    destruct d as [|[|d]]; cbn [cons_ix at_tp at_time nth] in *; try reflexivity.
    { unfold coord. destruct (Nat.eqb_spec N 1); [contradiction|reflexivity]. }
    { destruct d; cbn in Hd; congruence. }
  - apply V2. intros js Hj.
    assert (Hq' : (coord q c < q)%nat) by (unfold coord; destruct (Nat.eqb_spec q 1); lia).
    rewrite <- (HV js (coord q c) Hj Hq'). apply (WV _ SV). intros d Hd. cbn [length].
    destruct d as [|d]; cbn [Nat.ltb Nat.leb at_tp cons_ix].
    { unfold coord. destruct (Nat.eqb_spec q 1) as [E|E]; [cbn [nth] in Hd; contradiction|reflexivity]. }
    { cbn [Nat.sub]. rewrite Nat.sub_0_r. reflexivity. }
Qed.

Lemma grid_vector_value : forall gs q N values V coords xs, List.Forall grid_ok gs -> grid_vectors gs q values V -> test_points (length gs) [N] coords xs -> twf coords ->
  q = N \/ q = 1%nat \/ N = 1%nat -> (0 < q)%nat -> (0 < N)%nat ->
  exists Y, regular_grid_interp (map (map Fin) gs) values coords None = Ok Y /\ ash Y = Ok [Nat.max q N; N] /\
    forall m c, (m < N)%nat -> (c < Nat.max q N)%nat ->
    exists is is', in_cell gs (xs (at_time m)) is /\ in_cell gs (xs (at_time (coord N c))) is' /\
      aget Y (at_tp m c) = Fin (blend is (fractions gs (xs (at_time (coord N c))) is') (fun js => V js (coord q c))).
Proof.
  intros gs q N values V coords xs HG HV HT HC Hqn Hq HN.
  destruct (grid_vector_cells gs q N values V coords xs HG HV HT HC Hqn Hq HN) as (Y & EY & SY & VY).
  exists Y. split; [exact EY|]. split; [exact SY|]. intros m c Hm Hc.
  assert (Hc' : (coord N c < N)%nat) by (unfold coord; destruct (Nat.eqb_spec N 1); lia).
  assert (I1 : forall m, (m < N)%nat -> inside [N] (at_time m)) by (intros k Hk [|d] Hd; cbn in *; lia).
  eexists. eexists. split; [|split; [|apply VY; assumption]]; apply cells_in; try assumption; apply (proj2 HT); apply I1; assumption.
Qed.
Lemma grid_vector_single : forall gs q values V coords xs, List.Forall grid_ok gs -> grid_vectors gs q values V -> test_points (length gs) [1%nat] coords xs -> twf coords ->
  (0 < q)%nat ->
  exists Y, regular_grid_interp (map (map Fin) gs) values coords None = Ok Y /\ ash Y = Ok [q; 1%nat] /\
    forall c is F, (c < q)%nat -> in_cell gs (xs (at_time 0)) is -> multilinear (length gs) F ->
      (forall js, corner is js -> V js c = F (grid_point gs js)) -> aget Y (at_tp 0 c) = Fin (F (xs (at_time 0))).
Proof.
  intros gs q values V coords xs HG HV HT HC Hq.
  destruct (grid_vector_cells gs q 1 values V coords xs HG HV HT HC) as (Y & EY & SY & VY); try lia.
  exists Y. split; [exact EY|]. rewrite Nat.max_l in SY by lia. split; [exact SY|]. intros c is F Hc HI HF HVF.
  rewrite VY by lia. f_equal. cbn [coord Nat.eqb].
  assert (L0 : length (xs (at_time 0)) = length gs) by (apply (proj2 HT); intros [|d] Hd; cbn in *; lia).
  replace (coord q c) with c by (unfold coord; destruct (Nat.eqb_spec q 1); lia).
  change (gval gs (fun js => V js c) (xs (at_time 0)) = F (xs (at_time 0))). apply (gval_multilinear gs _ _ is F HG L0 HI HF HVF).
Qed.

(** ** examples *)
Definition ex_grid : list (list R) := [[0; 1; 3]; [0; 2]].
Definition ex_values : tens := mkA (Ok [2; 3]%nat) (fun i => Fin (INR (i 1%nat) * 10 + INR (i O))).
Definition ex_coords : tens := mkA (Ok [2; 4]%nat) (fun i => Fin (match i O with O => INR (i 1%nat) / 2 | _ => 1 end)).
Lemma ex_grid_ok : List.Forall grid_ok ex_grid.
Proof.
  repeat constructor.
  - intros a b H1 H2. cbn in H2. destruct b as [|[|[|b]]]; destruct a as [|[|a]]; try lia; cbn; lra.
  - intros a b H1 H2. cbn in H2. destruct b as [|[|b]]; destruct a as [|a]; try lia; cbn; lra.
Qed.
Lemma ex_grid_data : grid_data ex_grid ex_values (fun js => INR (nth 0 js O) * 10 + INR (nth 1 js O)).
Proof.
  split; [reflexivity|]. intros js H. inversion H as [|? j0 ? js0 H0 H1]; subst. inversion H1 as [|? j1 ? js1 H2 H3]; subst. inversion H3; subst. reflexivity.
Qed.
Lemma ex_points : test_points 2 [4%nat] ex_coords (fun i => [INR (i O) / 2; 1]).
Proof.
  split; [reflexivity|]. intros i Hi. split; [reflexivity|]. intros n Hn. destruct n as [|[|n]]; [reflexivity|reflexivity|lia].
Qed.
Lemma grid_example : List.Forall grid_ok ex_grid /\ grid_data ex_grid ex_values (fun js => INR (nth 0 js O) * 10 + INR (nth 1 js O)) /\
  test_points (length ex_grid) [4%nat] ex_coords (fun i => [INR (i O) / 2; 1]) /\
  in_cell ex_grid [INR 3 / 2; 1] [1; 0]%nat /\ within ex_grid [INR 3 / 2; 1] /\ filled ex_grid [0; 1] /\ ~ filled ex_grid [1; 1] /\
  multilinear 2 (fun l => nth 0 l 0 * nth 1 l 0 + 2).
Proof.
  split; [exact ex_grid_ok|]. split; [exact ex_grid_data|]. split; [exact ex_points|].
  split. { repeat (constructor; [split; [cbn; lia|]; split; cbn; try (left; reflexivity); try (right; lra)|]). constructor. }
  split. { repeat (constructor; [cbn; lra|]). constructor. }
  split. { exists O. split; [cbn; lia|]. left. cbn. lra. }
  split. { intros ([|[|n]] & Hn & H); cbn in *; [lra|lra|lia]. }
  intros l1 l2 a b c L. destruct l1 as [|x l1].
  - cbn. ring.
  - destruct l1 as [|y l1]; [cbn; ring|]. cbn in L. lia.
Qed.
Lemma vectors_example : grid_vectors [[0; 1]] 3 (mkA (Ok [3; 2]%nat) (fun i => Fin (INR (i 1%nat) + INR (i O)))) (fun js c => INR (nth 0 js O) + INR c) /\
  test_points 1 [3%nat] (mkA (Ok [1; 3]%nat) (fun i => Fin (INR (i 1%nat) / 2))) (fun i => [INR (i O) / 2]) /\
  twf (mkA (Ok [1; 3]%nat) (fun i => Fin (INR (i 1%nat) / 2))).
Proof.
  split; [|split].
  - split; [reflexivity|]. split.
    + intros s E i j H. cbn in *. injection E as <-. rewrite (H 0%nat), (H 1%nat) by (cbn; lia). reflexivity.
    + intros js c H Hc. inversion H as [|? j0 ? js0 H0 H1]; subst. inversion H1; subst. reflexivity.
  - split; [reflexivity|]. intros i Hi. split; [reflexivity|]. intros [|n] Hn; [reflexivity|lia].
  - intros s E i j H. cbn in *. injection E as <-. rewrite (H 1%nat) by (cbn; lia). reflexivity.
Qed.

Lemma vectors_refuted : ~ (forall gs q N values V coords xs F Y, List.Forall grid_ok gs -> grid_vectors gs q values V -> test_points (length gs) [N] coords xs -> twf coords ->
  multilinear (length gs) F -> (forall js c, on_grid gs js -> V js c = F (grid_point gs js)) ->
  regular_grid_interp (map (map Fin) gs) values coords None = Ok Y -> forall m c, (m < N)%nat -> (c < q)%nat -> aget Y (at_tp m c) = Fin (F (xs (at_time m)))).
Proof.
  intro H.
  set (values := mkA (Ok [2; 2]%nat) (fun i : idx => Fin (INR (i 1%nat)))). set (coords := mkA (Ok [1; 2]%nat) (fun i : idx => Fin (INR (i 1%nat)))).
  assert (G : List.Forall grid_ok [[0; 1]]).
  { repeat constructor. intros a b H1 H2. cbn in H2. destruct b as [|[|b]]; destruct a as [|a]; try lia; cbn; lra. }
  assert (GV : grid_vectors [[0; 1]] 2 values (fun js c => INR (nth 0 js O))).
  { split; [reflexivity|]. split.
    - intros s E i j Q. cbn in *. injection E as <-. rewrite (Q 1%nat) by (cbn; lia). reflexivity.
    - intros js c Q Hc. inversion Q as [|? j0 ? js0 H0 H1]; subst. inversion H1; subst. reflexivity. }
  assert (TP : test_points 1 [2%nat] coords (fun i => [INR (i O)])).
  { split; [reflexivity|]. intros i Hi. split; [reflexivity|]. intros [|n] Hn; [reflexivity|lia]. }
  assert (TW : twf coords) by (intros s E i j Q; cbn in *; injection E as <-; rewrite (Q 1%nat) by (cbn; lia); reflexivity).
  assert (MF : multilinear 1 (fun l => nth 0 l 0)).
  { intros [|x l1] l2 a b c L; cbn in *; [ring|lia]. }
  destruct (grid_vector_cells _ 2 2 values _ coords _ G GV TP TW) as (Y & EY & SY & VY); try lia.
  assert (VF : forall js (c : nat), on_grid [[0; 1]] js -> INR (nth 0 js O) = nth 0 (grid_point [[0; 1]] js) 0).
  { intros js c Q. inversion Q as [|? j0 ? js0 H0 H1]; subst. inversion H1; subst. cbn in H0. destruct j0 as [|[|j0]]; [reflexivity|reflexivity|lia]. }
  assert (E1 := H _ 2%nat 2%nat values _ coords _ _ Y G GV TP TW MF VF EY 1%nat 0%nat ltac:(lia) ltac:(lia)).
  assert (I1 : forall m, (m < 2)%nat -> inside [2%nat] (at_time m)) by (intros k Hk [|d] Hd; cbn in *; lia).
  assert (E2 := VY 1%nat 0%nat ltac:(lia) ltac:(cbn; lia)). rewrite E2 in E1. clear E2. revert E1.
  assert (A : forall m, (m < 2)%nat -> exists k, cells [[0; 1]] [INR (at_time m O)] = [k] /\ k = 0%nat).
  { intros m Hm. assert (Q := cells_in [[0; 1]] [INR (at_time m O)] G eq_refl).
    revert Q. generalize (cells [[0; 1]] [INR (at_time m O)]). intros l Q. inversion Q as [|? ? ? ? k ks B Q']; subst.
    inversion Q'; subst. exists k. split; [reflexivity|]. destruct B as [B _]. cbn in B. lia. }
  cbv beta. change (coord 2 0) with 0%nat. 
  destruct (A 1%nat ltac:(lia)) as (k1 & K1 & ->). destruct (A 0%nat ltac:(lia)) as (k0 & K0 & ->).
  match goal with |- Fin (blend ?a (fractions _ _ ?b) _) = _ -> _ => replace a with [0%nat] by (symmetry; exact K1); replace b with [0%nat] by (symmetry; exact K0) end.
  intro E1. injection E1 as E1. revert E1. cbn. lra.
Qed.
