(** * Shapes of the results for times of any shape *)
From Coq Require Import Reals List Bool Arith Lia.
From Verif Require Import Num CoreOps Inst M_units M_kepler M_fin M_tensor Spec_orbit Spec_params Spec_array L_shape.
Import ListNotations.

Section S.
Variable n : nat.
Variable D : shape.
Local Notation Sn := (L_shape.Sn n).
Local Notation En := (L_shape.En n).
Local Notation OSn := (L_shape.OSn n).
Definition T1S {A} (a : arr A) : Prop := ash a = Ok (1%nat :: D) \/ ash a = Ok (n :: D).
Definition ENS {A} (a : arr A) : Prop := ash a = Ok (n :: D).

Lemma bc_refl (s : shape) : bc s s = Some s.
Proof. induction s as [|d s IH]; [reflexivity|]. cbn. rewrite IH, Nat.eqb_refl. reflexivity. Qed.
Lemma bc_nil (s : shape) : bc s [] = Some s.
Proof. destruct s; reflexivity. Qed.
Lemma bcS_NN : bc (n :: D) (n :: D) = Some (n :: D). Proof. apply bc_refl. Qed.
Lemma bcS_nN : bc [n] (n :: D) = Some (n :: D). Proof. cbn. rewrite Nat.eqb_refl. reflexivity. Qed.
Lemma bcS_Nn : bc (n :: D) [n] = Some (n :: D). Proof. cbn. rewrite bc_nil, Nat.eqb_refl. reflexivity. Qed.
Lemma bcS_1n : bc (1%nat :: D) [n] = Some (n :: D). Proof. cbn. rewrite bc_nil. destruct n as [|[|?]]; reflexivity. Qed.
Lemma bcS_n1 : bc [n] (1%nat :: D) = Some (n :: D). Proof. cbn. destruct n as [|[|?]]; reflexivity. Qed.
Lemma bcS_11 : bc (1%nat :: D) (1%nat :: D) = Some (1%nat :: D). Proof. apply bc_refl. Qed.
Lemma bcS_1N : bc (1%nat :: D) (n :: D) = Some (n :: D). Proof. cbn. rewrite bc_refl. destruct n as [|[|?]]; reflexivity. Qed.
Lemma bcS_N1 : bc (n :: D) (1%nat :: D) = Some (n :: D). Proof. cbn. rewrite bc_refl. destruct n as [|[|?]]; reflexivity. Qed.
Ltac bcs := unfold L_shape.Sn, T1S, ENS; intros;
  repeat match goal with H : _ \/ _ |- _ => destruct H | H : _ /\ _ |- _ => destruct H end;
  cbn [ash amap amap2 amap3 bcr alit apadr];
  repeat match goal with H : ash _ = _ |- _ => rewrite H; clear H end;
  cbn [bcr rmap]; rewrite ?bcS_NN, ?bcS_nN, ?bcS_Nn, ?bcS_1n, ?bcS_n1, ?bcS_11, ?bcS_1N, ?bcS_N1, ?bc_nil;
  cbn [bcr]; rewrite ?bcS_NN, ?bcS_nN, ?bcS_Nn, ?bcS_1n, ?bcS_n1, ?bcS_11, ?bcS_1N, ?bcS_N1, ?bc_nil;
  cbn [bcr bc]; solve [auto].
Lemma T1S_map2l {A C D'} (f : A -> C -> D') a b : T1S a -> Sn b -> T1S (amap2 f a b). Proof. bcs. Qed.
Lemma T1S_En {A C D'} (f : A -> C -> D') a b : T1S a -> En b -> ENS (amap2 f a b).
Proof.
  intros Ta [S [E|E]]; unfold ENS; cbn [ash amap2].
  - rewrite E. destruct Ta as [-> | ->]; cbn [bcr]; rewrite ?bcS_1n, ?bcS_Nn; reflexivity.
  - destruct S as [[-> _]|[-> _]]; destruct Ta as [-> | ->]; cbn [bcr]; rewrite ?bcS_1n, ?bcS_Nn, ?bc_nil; cbn [bc]; rewrite ?E; reflexivity.
Qed.
Lemma ENS_map {A C} (f : A -> C) a : ENS a -> ENS (amap f a). Proof. bcs. Qed.
Lemma ENS_map2 {A C D'} (f : A -> C -> D') a b : ENS a -> ENS b -> ENS (amap2 f a b). Proof. bcs. Qed.
Lemma ENS_map2l {A C D'} (f : A -> C -> D') a b : ENS a -> Sn b -> ENS (amap2 f a b). Proof. bcs. Qed.
Lemma ENS_map2r {A C D'} (f : A -> C -> D') a b : Sn a -> ENS b -> ENS (amap2 f a b). Proof. bcs. Qed.
Lemma T1S_EN {A C D'} (f : A -> C -> D') a b : T1S a -> ENS b -> ENS (amap2 f a b). Proof. bcs. Qed.
Lemma ENS_map3 {A C D' G} (f : A -> C -> D' -> G) a b c : ENS a -> ENS b -> ENS c -> ENS (amap3 f a b c). Proof. bcs. Qed.
Lemma padr_T1S {A} (t : arr A) : ash t = Ok D -> T1S (apadr t). Proof. bcs. Qed.
Ltac sn := first
  [ assumption | apply (Sn_lit n) | apply En_Sn; assumption
  | apply Sn_map; sn | apply Sn_map2; sn | apply Sn_map3; sn ].

Section E.
Variable k : consts.
Variable o : orbit tens.
Hypothesis So : orbit_sn n o.
Hypothesis Eno : En (o_n o).
Variable w : bool -> tens -> tens.
Hypothesis Hw1 : forall t, ash t = Ok D -> T1S (w true t).
Hypothesis Hw0 : forall t, ENS t -> ENS (w false t).

Ltac en := first
  [ assumption
  | apply ENS_map; en
  | apply ENS_map2; en
  | apply ENS_map2l; [en|sn]
  | apply ENS_map2r; [sn|en]
  | apply ENS_map3; en ].

Lemma ta_shapeS (pad : bool) (t : tens) : (if pad then ash t = Ok D else ENS t) ->
  ENS (fst (true_anomaly o w pad t)) /\ ENS (snd (true_anomaly o w pad t)).
Proof.
  intro Ht. assert (S1 := os_tref _ _ So). assert (S2 := os_ecc _ _ So).
  assert (EM : ENS ((w pad t - o_tref o) * o_n o)%num).
  { destruct pad; [apply T1S_En; [apply T1S_map2l; [apply Hw1; exact Ht|sn]|assumption]|].
    assert (S3 := En_Sn n _ Eno). assert (E0 := Hw0 t Ht). en. }
  unfold true_anomaly. destruct (o_ecc o) as [d|]; cbn [fst snd].
  - destruct S2 as (S2 & _ & _). split; en.
  - split; en.
Qed.
Lemma rot_shapeS (x y : tens) : ENS x -> ENS y -> forall v, v = rotate_vector o x y -> ENS (fst (fst v)) /\ ENS (snd (fst v)) /\ ENS (snd v).
Proof.
  intros Hx Hy v ->. assert (S1 := os_ecc _ _ So). assert (S2 := os_Om _ _ So). assert (S3 := os_ci _ _ So). assert (S4 := os_si _ _ So).
  unfold rotate_vector.
  assert (K : forall X Y : tens, ENS X -> ENS Y ->
     let v := (let x2 := X in let y2 := (o_cos_incl o * Y)%num in let Z := (- o_sin_incl o * Y)%num in
       match o_Omega o with None => (x2, y2, Z) | Some w0 => ((O_cos w0 * x2 - O_sin w0 * y2)%num, (O_sin w0 * x2 + O_cos w0 * y2)%num, Z) end) in
     ENS (fst (fst v)) /\ ENS (snd (fst v)) /\ ENS (snd v)).
  { intros X Y HX HY. cbv zeta. destruct (o_Omega o) as [w0|]; cbn [fst snd].
    - destruct S2 as [S2 S2']. repeat split; en.
    - repeat split; en. }
  destruct (o_ecc o) as [d|].
  - destruct S1 as (_ & Sc & Ss). apply K; en.
  - apply K; assumption.
Qed.
Lemma pos_nd_shapeS (a t : tens) par (pad : bool) : Sn a -> OSn par -> (if pad then ash t = Ok D else ENS t) ->
  forall v, v = position_nodelay k o w a t par pad -> ENS (fst (fst v)) /\ ENS (snd (fst v)) /\ ENS (snd v).
Proof.
  intros Ha Hp Ht v ->. unfold position_nodelay. assert (T := ta_shapeS pad t Ht). destruct (true_anomaly o w pad t) as [s c].
  cbn [fst snd] in T. destruct T as [Ts Tc]. assert (S1 := os_ecc _ _ So).
  eapply rot_shapeS; [| |reflexivity].
  - destruct (o_ecc o) as [d|]; [destruct S1 as (? & _ & _)|]; destruct par; cbn [L_shape.OSn] in Hp; en.
  - destruct (o_ecc o) as [d|]; [destruct S1 as (? & _ & _)|]; destruct par; cbn [L_shape.OSn] in Hp; en.
Qed.
Lemma pos_shapeS (a t : tens) par ld : Sn a -> OSn par -> ash t = Ok D ->
  forall v, v = get_position k o w a t par ld true -> ENS (fst (fst v)) /\ ENS (snd (fst v)) /\ ENS (snd v).
Proof.
  intros Ha Hp Ht v ->. destruct ld; unfold get_position; [|apply (pos_nd_shapeS a t par true Ha Hp Ht _ eq_refl)].
  unfold retarded_position, retarded_state. assert (T := ta_shapeS true t Ht). destruct (true_anomaly o w true t) as [s c].
  cbn [fst snd] in T. destruct T as [Ts Tc]. assert (S1 := os_ecc _ _ So). assert (S2 := os_period _ _ So). assert (S3 := os_si _ _ So).
  assert (Q := padr_T1S t Ht).
  assert (DD : forall v0 z az, ENS v0 -> ENS z -> ENS az -> ENS (npadr t - light_delay_of k (nlit 0) v0 z az)%num).
  { intros v0 z az H1 H2 H3. apply T1S_EN; [exact Q|]. unfold light_delay_of. apply ENS_map3; en. }
  destruct (o_ecc o) as [d|].
  - destruct S1 as (Se & Sc & Ss).
    set (r := (a * _ / _)%num). assert (Er : ENS r) by (unfold r; en).
    assert (R := fun H1 H2 => rot_shapeS (r * c)%num (r * s)%num H1 H2 _ eq_refl).
    destruct (rotate_vector o (r * c)%num (r * s)%num) as [[X Y] Z]. cbn [fst snd] in R. destruct R as (_ & _ & RZ); [en|en|].
    refine (pos_nd_shapeS a _ None false Ha I _ _ eq_refl). cbv beta iota. apply DD; en.
  - assert (R := fun H1 H2 => rot_shapeS (a * c)%num (a * s)%num H1 H2 _ eq_refl).
    destruct (rotate_vector o (a * c)%num (a * s)%num) as [[X Y] Z]. cbn [fst snd] in R. destruct R as (_ & _ & RZ); [en|en|].
    refine (pos_nd_shapeS a _ None false Ha I _ _ eq_refl). cbv beta iota. apply DD; en.
Qed.
End E.
End S.
