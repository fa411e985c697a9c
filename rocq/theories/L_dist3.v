(** * Distributions: quad_limb_dark, impact_parameter *)
From Coq Require Import Reals List Bool Arith ZArith String Lra Lia FunctionalExtensionality.
From Coquelicot Require Import Coquelicot.
From Verif Require Import Num CoreOps Inst CoreFlux M_kwargs M_tensor M_limbdark M_dist Spec_array Spec_light Spec_dist L_real L_fl L_shapeS L_dist1 L_dist2.
Import ListNotations.
Local Notation length := List.length.
Open Scope R_scope.

(** ** quad_limb_dark *)
Definition quad1 (name : string) : string := ("__" ++ name ++ "_q1")%string.
Definition quad2 (name : string) : string := ("__" ++ name ++ "_q2")%string.
Definition quad_out {NT : Num tens btens} name : env -> tens := fun e =>
  stack2 (nsqrt (e (quad1 name)) * (nlit 2 * e (quad2 name)))%num (nsqrt (e (quad1 name)) * (nlit 1 - nlit 2 * e (quad2 name)))%num.
Lemma quad_form {NT : Num tens btens} p name kw ss out : quad_limb_dark p name kw = Ok (ss, out) ->
  exists kw1 kw2, ss = [Cite ["kipping13"%string] (dget "model" kw); Free [] (quad1 name) "Uniform" kw1; Free [] (quad2 name) "Uniform" kw2; Determ [] name out] /\
    out = quad_out name /\
    exists u u1 u2, num_of (fst (pop_initval (PNum (avec [sqrt (1 / 2); 0])) kw)) = Ok u /\ row u 0 = Ok u1 /\ row u 1 = Ok u2 /\
      forwarded p (between 0 1) (PNum ((u1 + u2) ^ 2)%num) kw kw1 /\ forwarded p (between 0 1) (PNum (nlit (1 / 2) * u1 / (u1 + u2))%num) kw kw2.
Proof.
  unfold quad_limb_dark. destruct (pop_initval _ kw) as [iv kw'] eqn:EP. destruct (num_of iv) as [u|] eqn:EV; [|discriminate]. cbn [rbind].
  destruct (row u 0) as [u1|] eqn:E0; [|discriminate]. cbn [rbind]. destruct (row u 1) as [u2|] eqn:E1; [|discriminate]. cbn [rbind].
  intro E. injection E as <- <-. do 2 eexists. split; [reflexivity|]. split; [reflexivity|]. exists u, u1, u2. cbn [fst]. do 3 (split; [assumption|]).
  match type of EP with ?P = _ => assert (EK : kw' = snd P) by (rewrite EP; reflexivity) end.
  subst kw'. split; apply forwarded_bounds.
Qed.
Lemma quad_names name : quad1 name <> quad2 name.
Proof. unfold quad1, quad2. do 2 apply app_neq. discriminate. Qed.

Lemma stack2_shape (a b : tens) (s : shape) : ash a = Ok s -> ash b = Ok s -> ash (stack2 a b) = Ok (s ++ [2%nat]).
Proof. intros A B. unfold stack2. cbn [ash]. rewrite A, B. destruct (list_eq_dec Nat.eq_dec s s); [reflexivity|contradiction]. Qed.
Lemma stack2_0 (a b : tens) (s : shape) i : ash a = Ok s -> i (length s) = 0%nat -> aget (stack2 a b) i = aget a i.
Proof. intros A H. unfold stack2, andim. cbn [aget]. rewrite A, H. reflexivity. Qed.
Lemma stack2_1 (a b : tens) (s : shape) i : ash a = Ok s -> i (length s) = 1%nat -> aget (stack2 a b) i = aget b i.
Proof. intros A H. unfold stack2, andim. cbn [aget]. rewrite A, H. reflexivity. Qed.
Lemma law_iff u1 u2 : physical_law (intensity u1 u2) <-> 0 <= u1 /\ u1 + u2 <= 1 /\ 0 <= u1 + 2 * u2.
Proof.
  unfold physical_law, intensity. split.
  - intros [H1 H2]. split; [|split].
    + (* slope at mu = 1 *)
      destruct (Rle_dec 0 u1) as [h|h]; [exact h|exfalso]. set (d := Rmin 1 (- u1 / (2 * (1 + Rabs u2)))).
      assert (A : 0 < 1 + Rabs u2) by (generalize (Rabs_pos u2); lra).
      assert (D0 : 0 < - u1 / (2 * (1 + Rabs u2))) by (apply Rdiv_lt_0_compat; lra).
      assert (D : 0 < d) by (unfold d; apply Rmin_glb_lt; lra).
      assert (D1 : d <= 1) by apply Rmin_l.
      assert (D2 : d <= - u1 / (2 * (1 + Rabs u2))) by apply Rmin_r.
      assert (D3 : d * (1 + Rabs u2) <= - u1 / 2).
      { replace (- u1 / 2) with (- u1 / (2 * (1 + Rabs u2)) * (1 + Rabs u2)) by (field; lra). apply Rmult_le_compat_r; lra. }
      specialize (H2 (1 - d) 1 ltac:(lra) ltac:(lra) ltac:(lra)).
      assert (- Rabs u2 <= u2) by (unfold Rabs; destruct (Rcase_abs u2); lra).
      assert (0 <= u1 + u2 * d) by nra. assert (u2 * d <= Rabs u2 * d) by (apply Rmult_le_compat_r; [lra|apply Rle_abs]). nra.
    + specialize (H1 0 ltac:(lra)). lra.
    + destruct (Rle_dec 0 (u1 + 2 * u2)) as [h|h]; [exact h|exfalso]. set (w := u1 + 2 * u2) in *.
      set (d := Rmin 1 (- w / (2 * (1 + Rabs u2)))).
      assert (A : 0 < 1 + Rabs u2) by (generalize (Rabs_pos u2); lra).
      assert (D0 : 0 < - w / (2 * (1 + Rabs u2))) by (apply Rdiv_lt_0_compat; lra).
      assert (D : 0 < d) by (unfold d; apply Rmin_glb_lt; lra).
      assert (D1 : d <= 1) by apply Rmin_l.
      assert (D2 : d <= - w / (2 * (1 + Rabs u2))) by apply Rmin_r.
      assert (D3 : d * (1 + Rabs u2) <= - w / 2).
      { replace (- w / 2) with (- w / (2 * (1 + Rabs u2)) * (1 + Rabs u2)) by (field; lra). apply Rmult_le_compat_r; lra. }
      specialize (H2 0 d ltac:(lra) ltac:(lra) ltac:(lra)).
      assert (E : 0 <= d * (w - u2 * d)) by (unfold w; nra).
      assert (0 <= w - u2 * d) by nra. assert (- Rabs u2 <= u2) by (unfold Rabs; destruct (Rcase_abs u2); lra).
      assert (- u2 * d <= Rabs u2 * d) by (apply Rmult_le_compat_r; lra). nra.
  - intros (H1 & H2 & H3).
    assert (M : forall mu mu', 0 <= mu -> mu <= mu' -> mu' <= 1 ->
              1 - u1 * (1 - mu) - u2 * ((1 - mu) * (1 - mu)) <= 1 - u1 * (1 - mu') - u2 * ((1 - mu') * (1 - mu'))).
    { intros mu mu' A B C. assert (Q : 0 <= (mu' - mu) * (u1 + u2 * (2 - mu - mu'))).
      { apply Rmult_le_pos; [lra|]. destruct (Rle_dec 0 u2); [nra|]. assert (u2 * (2 - mu - mu') >= 2 * u2) by nra. lra. }
      nra. }
    split; [|exact M]. intros mu Hmu. specialize (M 0 mu ltac:(lra) ltac:(lra) ltac:(lra)). lra.
Qed.

Lemma quad_value : forall p name kw ss out, quad_limb_dark p name kw = Ok (ss, out) ->
  exists c n1 n2 kw1 kw2 rest f g, ss = c :: Free [] n1 "Uniform" kw1 :: Free [] n2 "Uniform" kw2 :: rest /\ no_variable c /\ n1 <> n2 /\ List.Forall no_variable rest /\
    on_interval 0 1 kw1 /\ on_interval 0 1 kw2 /\ In (Determ [] name out) rest /\ potentials ss = [] /\
    (forall e i s a b, ash (e n1) = Ok s -> ash (e n2) = Ok s -> aget (e n1) i = Fin a -> aget (e n2) i = Fin b -> 0 <= a ->
       ash (out e) = Ok (s ++ [2%nat]) /\
       (i (length s) = 0%nat -> aget (out e) i = Fin (f a b)) /\ (i (length s) = 1%nat -> aget (out e) i = Fin (g a b))) /\
    (forall a b, 0 <= a <= 1 -> 0 <= b <= 1 -> physical_law (intensity (f a b) (g a b))) /\
    one_to_one f g (fun a b => 0 < a <= 1 /\ 0 <= b <= 1) (fun u1 u2 => physical_law (intensity u1 u2) /\ 0 < u1 + u2) /\
    (forall a b, 0 < a -> jacobian f g a b (-1)).
Proof.
  intros p name kw ss out E. destruct (quad_form _ _ _ _ _ E) as (kw1 & kw2 & -> & -> & ? & ? & ? & _ & _ & _ & (_ & _ & F1 & _) & (_ & _ & F2 & _)).
  eexists. exists (quad1 name), (quad2 name), kw1, kw2. eexists. exists (fun a b => sqrt a * (2 * b)), (fun a b => sqrt a * (1 - 2 * b)).
  split; [reflexivity|]. split; [intros ? ? ? ? Q; discriminate Q|]. split; [apply quad_names|]. split; [repeat constructor; apply not_free_det|].
  split; [exact F1|]. split; [exact F2|]. split; [left; reflexivity|]. split; [reflexivity|]. split; [|split; [|split]].
  - intros e i s a b S1 S2 E1 E2 Ha. unfold quad_out.
    assert (SA : ash (nsqrt (e (quad1 name)) * (nlit 2 * e (quad2 name)))%num = Ok s).
    { cbn [nmul nsqrt nlit NumT amap2 amap alit ash]. rewrite S1, S2. cbn [bcr bc]. rewrite bc_refl. reflexivity. }
    assert (SB : ash (nsqrt (e (quad1 name)) * (nlit 1 - nlit 2 * e (quad2 name)))%num = Ok s).
    { cbn [nmul nsqrt nsub nlit NumT amap2 amap alit ash]. rewrite S1, S2. cbn [bcr bc]. rewrite bc_refl. reflexivity. }
    assert (FA : fsqrt (Fin a) = Fin (sqrt a)) by (cbn [fsqrt]; unfold Rltb; destruct (Rlt_dec a 0); [lra|reflexivity]).
    split; [apply stack2_shape; assumption|].
    split; intro Hi; [rewrite (stack2_0 _ _ s i SA Hi)|rewrite (stack2_1 _ _ s i SA Hi)]; cbn [nmul nsqrt nsub nlit NumT amap2 amap alit aget]; rewrite E1, E2, FA; cbn [fmul fsub fadd fneg]; f_equal; ring.
  - intros a b Ha Hb. apply law_iff. assert (S := sqrt_pos a). assert (S1 : sqrt a <= 1) by (rewrite <- sqrt_1; apply sqrt_le_1_alt; lra).
    split; [nra|]. split; [nra|]. nra.
  - split.
    + intros a b [Ha Hb]. split.
      * apply law_iff. assert (S := sqrt_pos a). assert (S1 : sqrt a <= 1) by (rewrite <- sqrt_1; apply sqrt_le_1_alt; lra).
        split; [nra|]. split; [nra|]. nra.
      * replace (sqrt a * (2 * b) + sqrt a * (1 - 2 * b)) with (sqrt a) by ring. apply sqrt_lt_R0; lra.
    + intros u1 u2 [H P0]. apply law_iff in H. destruct H as (H1 & H2 & H3).
      assert (SQ : sqrt ((u1 + u2) * (u1 + u2)) = u1 + u2) by (apply sqrt_square; lra).
      exists ((u1 + u2) * (u1 + u2)), (u1 / (2 * (u1 + u2))). rewrite SQ.
      split; [|split; [field; lra|split; [field; lra|]]].
      { split; [split; nra|]. split; [apply Rmult_le_pos; [lra|apply Rlt_le, Rinv_0_lt_compat; lra]|].
        apply (Rmult_le_reg_r (2 * (u1 + u2))); [lra|]. unfold Rdiv. rewrite Rmult_assoc, Rinv_l by lra. lra. }
      intros a' b' [Ha' Hb'] Q1 Q2.
      assert (Q3 : sqrt a' = u1 + u2) by lra.
      assert (Q4 := sqrt_sqrt a' ltac:(lra)). split; [rewrite <- Q4, Q3; reflexivity|].
      rewrite <- Q1 at 1. rewrite <- Q3. field. lra.
  - intros a b Ha. assert (S := sqrt_lt_R0 _ Ha).
    exists (/ (2 * sqrt a) * (2 * b)), (sqrt a * 2), (/ (2 * sqrt a) * (1 - 2 * b)), (sqrt a * -2).
    split; [auto_derive; [exact Ha|field; lra]|]. split; [auto_derive; [exact I|ring]|]. split; [auto_derive; [exact Ha|field; lra]|].
    split; [auto_derive; [exact I|ring]|]. field. lra.
Qed.

Lemma quad_start : forall p name kw ss out v d, quad_limb_dark p name kw = Ok (ss, out) -> requested kw (PNum v) -> ash v = Ok (d ++ [2%nat]) ->
  forall e i u1 u2, at_start p ss e -> aget v (set_ix (length d) 0 i) = Fin u1 -> aget v (set_ix (length d) 1 i) = Fin u2 -> 0 < u1 + u2 ->
    aget (out e) (set_ix (length d) 0 i) = Fin u1 /\ aget (out e) (set_ix (length d) 1 i) = Fin u2.
Proof.
  intros p name kw ss out v d E HV HD e i u1 u2 HE E0 E1 HP.
  destruct (quad_form _ _ _ _ _ E) as (kw1 & kw2 & -> & -> & v' & v1 & v2 & EV & R0 & R1 & F1 & F2).
  rewrite (pop_requested _ _ _ HV) in EV. injection EV as <-.
  assert (LD : (length (d ++ [2%nat]) - 1)%nat = length d) by (rewrite app_length; cbn [length]; lia).
  assert (G1 : forall j, aget v1 j = aget v (set_ix (length d) 0 j)) by (intro j; rewrite (row_get _ _ _ j _ R0 HD), LD; reflexivity).
  assert (G2 : forall j, aget v2 j = aget v (set_ix (length d) 1 j)) by (intro j; rewrite (row_get _ _ _ j _ R1 HD), LD; reflexivity).
  assert (SH : forall n w, row v n = Ok w -> ash w = Ok d).
  { intros n w. unfold row. rewrite HD. destruct (d ++ [2%nat]) as [|q0 q] eqn:ED; [destruct d; discriminate|].
    rewrite <- ED. destruct (Nat.ltb _ _); [|discriminate]. intro Q. injection Q as <-. cbn [ash]. rewrite removelast_last. reflexivity. }
  assert (S1 := SH _ _ R0). assert (S2 := SH _ _ R1).
  assert (e (quad1 name) = ((v1 + v2) ^ 2)%num) as Q1 by (apply (HE [] _ "Uniform"%string kw1); [right; left; reflexivity|exact (proj1 F1)]).
  assert (e (quad2 name) = (nlit (1 / 2) * v1 / (v1 + v2))%num) as Q2 by (apply (HE [] _ "Uniform"%string kw2); [right; right; left; reflexivity|exact (proj1 F2)]).
  assert (SE1 : ash (e (quad1 name)) = Ok d).
  { rewrite Q1. cbn [npw nadd nmul NumT amap2 ash]. rewrite S1, S2. cbn [bcr]. rewrite !bc_refl. cbn [bcr]. rewrite bc_refl. reflexivity. }
  assert (SI : forall a b j, set_ix (length d) a (set_ix (length d) b j) = set_ix (length d) a j).
  { intros a b j. extensionality ax. unfold set_ix. destruct (Nat.eqb ax (length d)); reflexivity. }
  assert (A1 : forall c, aget v1 (set_ix (length d) c i) = Fin u1) by (intro c; rewrite G1, SI; exact E0).
  assert (A2 : forall c, aget v2 (set_ix (length d) c i) = Fin u2) by (intro c; rewrite G2, SI; exact E1).
  assert (L1 : forall c, aget (e (quad1 name)) (set_ix (length d) c i) = Fin ((u1 + u2) * (u1 + u2))).
  { intro c. rewrite Q1. cbn [npw nadd nmul NumT amap2 aget]. rewrite A1, A2. reflexivity. }
  assert (L2 : forall c, aget (e (quad2 name)) (set_ix (length d) c i) = Fin (1 / 2 * u1 / (u1 + u2))).
  { intro c. rewrite Q2. cbn [nadd nmul ndiv nlit NumT amap2 alit aget]. rewrite A1, A2. cbn [fmul fadd fdiv]. unfold Reqb. destruct (Req_EM_T (u1 + u2) 0); [lra|reflexivity]. }
  assert (SQ : sqrt ((u1 + u2) * (u1 + u2)) = u1 + u2) by (apply sqrt_square; lra).
  assert (FS : fsqrt (Fin ((u1 + u2) * (u1 + u2))) = Fin (u1 + u2)).
  { cbn [fsqrt]. unfold Rltb. destruct (Rlt_dec ((u1 + u2) * (u1 + u2)) 0); [nra|rewrite SQ; reflexivity]. }
  assert (AN : ash (nsqrt (e (quad1 name)) * (nlit 2 * e (quad2 name)))%num = Ok d).
  { cbn [nmul nsqrt nlit NumT amap2 amap alit ash]. rewrite SE1. rewrite Q2. cbn [nadd nmul ndiv nlit NumT amap2 alit ash].
    rewrite S1, S2. repeat (cbn [bcr bc]; rewrite ?bc_refl). reflexivity. }
  assert (Z : forall c, set_ix (length d) c i (length d) = c) by (intro c; unfold set_ix; rewrite Nat.eqb_refl; reflexivity).
  unfold quad_out. rewrite (stack2_0 _ _ d _ AN (Z 0%nat)), (stack2_1 _ _ d _ AN (Z 1%nat)).
  split; cbn [nmul nsqrt nsub nlit NumT amap2 amap alit aget]; rewrite L1, L2, FS; cbn [fmul fsub fadd fneg]; f_equal; field; lra.
Qed.

(** ** impact_parameter *)
Definition impact1 (name : string) : string := ("__" ++ name ++ "_impact_parameter")%string.
Lemma forwarded_shape p d start lo hi kw sh : dget "shape" kw = None ->
  forwarded p (("shape"%string, sh) :: between lo hi) start kw
    (with_initval p (dset "initval" start (dset "upper" (PNum (alit (Fin hi))) (dset "lower" (PNum (alit (Fin lo))) (dset "shape" sh (snd (pop_initval d kw))))))).
Proof.
  intro HN. match goal with |- forwarded _ _ _ _ (with_initval _ (dset _ _ ?K)) =>
    destruct (with_initval_spec p (dset "initval" start K) start (dget_set_same _ _ _)) as (F1 & F2 & F3 & F4) end.
  do 2 (split; [assumption|]). split.
  - intros k v [E|[E|[E|[]]]]; injection E as <- <-; (rewrite F4; [|discriminate|discriminate|intros []]); dsolve; reflexivity.
  - intros k N1 N2 N3. rewrite F4; [|assumption|assumption|intros []].
    assert (k <> "lower"%string /\ k <> "upper"%string /\ k <> "shape"%string) as (N4 & N5 & N6) by (split; [|split]; intro Q; subst k; apply N3; cbn; tauto).
    rewrite pop_rest. dsolve. reflexivity.
Qed.
(** what is added to the keywords *)
Lemma impact_form {NT : Num tens btens} p name ror kw ss out : impact_parameter p name ror kw = Ok (ss, out) ->
  exists kw1, ss = [Free [] (impact1 name) "Uniform" kw1; Determ [] name out] /\ out = (fun e => (e (impact1 name) * (nlit 1 + ror))%num) /\
    exists bhat b2, num_of (fst (pop_initval (PNum (alit (Fin (1 / 2)))) kw)) = Ok bhat /\ (forall i, aget b2 i = aget bhat i) /\
      forwarded p (shape_added p ror kw ++ between 0 1) (PNum (b2 / (nlit 1 + ror))%num) kw kw1.
Proof.
  unfold impact_parameter. destruct (pop_initval _ kw) as [iv kw'] eqn:EP. destruct (num_of iv) as [bh|] eqn:EV; [|discriminate]. cbn [rbind].
  match type of EP with ?P = _ => assert (EK : kw' = snd P) by (rewrite EP; reflexivity) end.
  destruct p.
  - cbn [rbind]. intro E. injection E as <- <-. eexists. split; [reflexivity|]. split; [reflexivity|]. exists bh, bh. cbn [fst].
    split; [exact EV|]. split; [reflexivity|]. cbn [shape_added app]. rewrite EK. apply forwarded_bounds.
  - destruct (ash ror) as [sr|] eqn:ES; [|discriminate]. cbn [rbind].
    assert (GS : dget "shape" kw' = dget "shape" kw) by (rewrite EK, pop_rest; dsolve; reflexivity).
    rewrite GS. destruct (dget "shape" kw) as [sv|] eqn:EG.
    + rewrite GS. destruct (tuple_of sv) as [s|]; [|discriminate]. cbn [rbind]. intro E. injection E as <- <-.
      eexists. split; [reflexivity|]. split; [reflexivity|]. exists bh, (broadcast_to bh s). split; [exact EV|]. split; [reflexivity|].
      unfold shape_added. rewrite EG. cbn [app]. rewrite EK. apply forwarded_bounds.
    + rewrite dget_set_same. cbn [tuple_of rbind]. intro E. injection E as <- <-.
      eexists. split; [reflexivity|]. split; [reflexivity|]. exists bh, (broadcast_to bh sr). split; [exact EV|]. split; [reflexivity|].
      unfold shape_added. rewrite EG, ES. cbn [app]. rewrite EK. apply forwarded_shape. exact EG.
Qed.
Lemma impact_value : forall p name ror kw ss out, impact_parameter p name ror kw = Ok (ss, out) ->
  exists n kw1 rest, ss = Free [] n "Uniform" kw1 :: rest /\ List.Forall no_variable rest /\ potentials ss = [] /\
    on_interval 0 1 kw1 /\ In (Determ [] name out) rest /\
    forall e i k a, aget ror i = Fin k -> -1 < k -> aget (e n) i = Fin a ->
      exists b, aget (out e) i = Fin b /\ b = a * (1 + k) /\ (0 <= a <= 1 <-> 0 <= b <= 1 + k).
Proof.
  intros p name ror kw ss out E. destruct (impact_form _ _ _ _ _ _ E) as (kw1 & -> & -> & bh & b2 & _ & _ & F).
  exists (impact1 name), kw1. eexists. split; [reflexivity|]. split; [repeat constructor; apply not_free_det|]. split; [reflexivity|]. split.
  { intros k v H. destruct F as (_ & _ & F & _). apply F. apply in_or_app. right. exact H. }
  split; [left; reflexivity|].
  intros e i k a Ek Hk Ea. exists (a * (1 + k)). split; [|split; [reflexivity|]].
  - cbn [nmul nadd nlit NumT amap2 alit aget]. rewrite Ek, Ea. reflexivity.
  - split; intro H; split; nra.
Qed.
Lemma impact_start : forall p name ror kw ss out v, impact_parameter p name ror kw = Ok (ss, out) -> requested kw (PNum v) ->
  forall e i k b, at_start p ss e -> aget ror i = Fin k -> 1 + k <> 0 -> aget v i = Fin b -> aget (out e) i = Fin b.
Proof.
  intros p name ror kw ss out v E HV e i k b HE Ek Hk Hb. destruct (impact_form _ _ _ _ _ _ E) as (kw1 & -> & -> & bh & b2 & EV & EB & F).
  rewrite (pop_requested _ _ _ HV) in EV. injection EV as <-.
  assert (e (impact1 name) = (b2 / (nlit 1 + ror))%num) as Q by (apply (HE [] _ "Uniform"%string kw1); [left; reflexivity|exact (proj1 F)]).
  cbn [nmul nadd nlit NumT amap2 alit aget]. rewrite Q. cbn [ndiv nadd nlit NumT amap2 alit aget]. rewrite EB, Hb, Ek. cbn [fadd fdiv]. unfold Reqb.
  destruct (Req_EM_T (1 + k) 0); [contradiction|]. cbn [fmul]. f_equal. field. exact Hk.
Qed.
Lemma impact_start_default : forall p name ror kw ss out, impact_parameter p name ror kw = Ok (ss, out) -> not_requested kw ->
  forall e i k, at_start p ss e -> aget ror i = Fin k -> 1 + k <> 0 -> aget (out e) i = Fin (1 / 2).
Proof.
  intros p name ror kw ss out E HV e i k HE Ek Hk. destruct (impact_form _ _ _ _ _ _ E) as (kw1 & -> & -> & bh & b2 & EV & EB & F).
  rewrite (pop_default _ _ HV) in EV. injection EV as <-.
  assert (e (impact1 name) = (b2 / (nlit 1 + ror))%num) as Q by (apply (HE [] _ "Uniform"%string kw1); [left; reflexivity|exact (proj1 F)]).
  cbn [nmul nadd nlit NumT amap2 alit aget]. rewrite Q. cbn [ndiv nadd nlit NumT amap2 alit aget]. rewrite EB, Ek. cbn [alit aget fadd fdiv]. unfold Reqb.
  destruct (Req_EM_T (1 + k) 0); [contradiction|]. cbn [fmul]. f_equal. field. exact Hk.
Qed.
