(** * Distributions: angle and unit_disk *)
From Coq Require Import Reals List Bool Arith ZArith String Lra Lia FunctionalExtensionality.
From Coquelicot Require Import Coquelicot.
From Verif Require Import Num CoreOps Inst M_kwargs M_tensor M_limbdark M_dist Spec_dist L_real L_fl L_shapeS L_dist1.
Import ListNotations.
Local Notation length := List.length.
Open Scope R_scope.

(** ** angle *)
Definition angle1 (name : string) : string := ("__" ++ name ++ "_angle1")%string.
Definition angle2 (name : string) : string := ("__" ++ name ++ "_angle2")%string.
Lemma app_neq (a b c : string) : b <> c -> (a ++ b)%string <> (a ++ c)%string.
Proof. intros N E. apply N. apply (string_app_inj_l _ _ _ E). Qed.
Lemma angle_names name : angle1 name <> angle2 name.
Proof. unfold angle1, angle2. do 2 apply app_neq. discriminate. Qed.

Definition angle_out {NT : Num tens btens} name : env -> tens := fun e => natan2 (e (angle1 name)) (e (angle2 name)).
Definition angle_pot {NT : Num tens btens} (name : string) (regularization : option tens) : list stmt :=
  match regularization with
  | None => []
  | Some q => [Potential [] (name ++ "_regularization")%string
                 (fun e => (q * nlog (e (angle1 name) ^ 2 + e (angle2 name) ^ 2))%num)]
  end.
Lemma angle_form {NT : Num tens btens} p name reg kw ss out : angle p name reg kw = Ok (ss, out) ->
  exists kw1 kw2, ss = Free [] (angle1 name) "Normal" kw1 :: Free [] (angle2 name) "Normal" kw2 :: angle_pot name reg ++ [Determ [] name (angle_out name)] /\
    out = angle_out name /\
    exists z v, np_zeros (match dget "shape" kw with Some s => s | None => PShape [] end) = Ok z /\
      num_of (fst (pop_initval (PNum z) kw)) = Ok v /\
      forwarded p [] (PNum (nsin v)) kw kw1 /\ forwarded p [] (PNum (ncos v)) kw kw2.
Proof.
  unfold angle. destruct (np_zeros _) as [z|] eqn:EZ; [|discriminate]. cbn [rbind].
  destruct (pop_initval (PNum z) kw) as [iv kw'] eqn:EP. destruct (num_of iv) as [v|] eqn:EV; [|discriminate]. cbn [rbind].
  intro E. injection E as <- <-. eexists. eexists. split; [reflexivity|]. split; [reflexivity|]. exists z, v.
  split; [reflexivity|]. rewrite EP. cbn [fst]. split; [exact EV|].
  assert (EK : kw' = snd (pop_initval (PNum z) kw)) by (rewrite EP; reflexivity).
  subst kw'. split; apply forwarded_plain.
Qed.
Lemma angle_total p name reg kw s v : shape_is kw s -> requested kw (PNum v) \/ (not_requested kw /\ ash v = Ok s /\ forall i, aget v i = Fin 0) ->
  exists ss out, angle p name reg kw = Ok (ss, out).
Proof.
  intros HS HV. destruct (shape_zeros kw s HS) as (z & EZ & _).
  unfold angle. rewrite EZ. cbn [rbind]. destruct (pop_initval (PNum z) kw) as [iv kw'] eqn:EP.
  assert (EI : fst (pop_initval (PNum z) kw) = iv) by (rewrite EP; reflexivity).
  destruct HV as [HV|[HV _]].
  - rewrite (pop_requested _ _ _ HV) in EI. subst iv. cbn [num_of rbind]. eexists. eexists. reflexivity.
  - rewrite (pop_default _ _ HV) in EI. subst iv. cbn [num_of rbind]. eexists. eexists. reflexivity.
Qed.
Lemma angle_pot_novar {NT : Num tens btens} name reg : List.Forall no_variable (angle_pot name reg ++ [Determ [] name (angle_out name)]).
Proof.
  apply Forall_app. split; [|repeat constructor; apply not_free_det]. destruct reg; cbn; repeat constructor. apply not_free_pot.
Qed.

Lemma angle_value : forall p name reg kw ss out, angle p name reg kw = Ok (ss, out) ->
  exists n1 n2 kw1 kw2 rest, ss = Free [] n1 "Normal" kw1 :: Free [] n2 "Normal" kw2 :: rest /\ n1 <> n2 /\ List.Forall no_variable rest /\
    In (Determ [] name out) rest /\
    forall e i x1 x2, aget (e n1) i = Fin x1 -> aget (e n2) i = Fin x2 -> x1 * x1 + x2 * x2 <> 0 ->
      exists th, aget (out e) i = Fin th /\ - PI < th <= PI /\
        x1 = sqrt (x1 * x1 + x2 * x2) * sin th /\ x2 = sqrt (x1 * x1 + x2 * x2) * cos th.
Proof.
  intros p name reg kw ss out E. destruct (angle_form _ _ _ _ _ _ E) as (kw1 & kw2 & -> & -> & _).
  exists (angle1 name), (angle2 name), kw1, kw2. eexists. split; [reflexivity|]. split; [apply angle_names|]. split; [apply angle_pot_novar|].
  split; [apply in_or_app; right; left; reflexivity|].
  intros e i x1 x2 E1 E2 N. unfold angle_out. cbn [natan2 NumT amap2 aget]. rewrite E1, E2. cbn [fatan2].
  eexists. split; [reflexivity|]. split; [apply Ratan2_bounds|].
  destruct (Ratan2_polar x1 x2) as [C S]; [lra|]. replace (x2 * x2 + x1 * x1) with (x1 * x1 + x2 * x2) in C, S by ring.
  rewrite C, S. assert (0 < sqrt (x1 * x1 + x2 * x2)) by (apply sqrt_lt_R0; nra). split; field; lra.
Qed.

Lemma angle_shape : forall p name reg kw n1 n2 kw1 kw2 rest out, angle p name reg kw = Ok (Free [] n1 "Normal" kw1 :: Free [] n2 "Normal" kw2 :: rest, out) ->
  forall e s, ash (e n1) = Ok s -> ash (e n2) = Ok s -> ash (out e) = Ok s.
Proof.
  intros p name reg kw n1 n2 kw1 kw2 rest out E e s E1 E2. destruct (angle_form _ _ _ _ _ _ E) as (k1 & k2 & Q & -> & _).
  injection Q as -> _ -> _ _. unfold angle_out. cbn [natan2 NumT amap2 ash]. rewrite E1, E2. cbn [bcr]. rewrite bc_refl. reflexivity.
Qed.
Lemma angle_scale : forall p name reg kw n1 n2 kw1 kw2 rest out, angle p name reg kw = Ok (Free [] n1 "Normal" kw1 :: Free [] n2 "Normal" kw2 :: rest, out) ->
  forall e e' i x1 x2 c, aget (e n1) i = Fin x1 -> aget (e n2) i = Fin x2 -> 0 < c ->
    aget (e' n1) i = Fin (c * x1) -> aget (e' n2) i = Fin (c * x2) -> aget (out e') i = aget (out e) i.
Proof.
  intros p name reg kw n1 n2 kw1 kw2 rest out E e e' i x1 x2 c E1 E2 Hc E3 E4. destruct (angle_form _ _ _ _ _ _ E) as (k1 & k2 & Q & -> & _).
  injection Q as -> _ -> _ _. unfold angle_out. cbn [natan2 NumT amap2 aget]. rewrite E1, E2, E3, E4. cbn [fatan2]. rewrite Ratan2_scale by exact Hc. reflexivity.
Qed.

(** rotating the latent vector rotates the angle and changes no potential *)
Lemma angle_rotation : forall p name reg kw n1 n2 kw1 kw2 rest out, angle p name reg kw = Ok (Free [] n1 "Normal" kw1 :: Free [] n2 "Normal" kw2 :: rest, out) ->
  forall e e' i x1 x2 phi, aget (e n1) i = Fin x1 -> aget (e n2) i = Fin x2 -> x1 * x1 + x2 * x2 <> 0 ->
    aget (e' n1) i = Fin (x1 * cos phi + x2 * sin phi) -> aget (e' n2) i = Fin (x2 * cos phi - x1 * sin phi) ->
    (exists th th' k, aget (out e) i = Fin th /\ aget (out e') i = Fin th' /\ th' = th + phi + IZR k * (2 * PI)) /\
    forall f, In f (potentials rest) -> aget (f e) i = aget (f e') i.
Proof.
  intros p name reg kw n1 n2 kw1 kw2 rest out E e e' i x1 x2 phi E1 E2 N E3 E4.
  assert (EV := angle_value _ _ _ _ _ _ E). destruct EV as (m1 & m2 & l1 & l2 & r & Q & _ & _ & _ & HV). injection Q as <- _ <- _ _.
  destruct (HV e i x1 x2 E1 E2 N) as (th & O1 & B1 & S1 & C1).
  assert (SC : sin phi * sin phi + cos phi * cos phi = 1) by (generalize (sin2_cos2 phi); unfold Rsqr; lra).
  assert (EN : (x1 * cos phi + x2 * sin phi) * (x1 * cos phi + x2 * sin phi) + (x2 * cos phi - x1 * sin phi) * (x2 * cos phi - x1 * sin phi) = x1 * x1 + x2 * x2).
  { transitivity ((x1 * x1 + x2 * x2) * (sin phi * sin phi + cos phi * cos phi)); [ring|rewrite SC; ring]. }
  assert (N' : (x1 * cos phi + x2 * sin phi) * (x1 * cos phi + x2 * sin phi) + (x2 * cos phi - x1 * sin phi) * (x2 * cos phi - x1 * sin phi) <> 0)
    by (rewrite EN; exact N).
  destruct (HV e' i _ _ E3 E4 N') as (th' & O2 & B2 & S2 & C2). rewrite EN in S2, C2.
  set (r0 := sqrt (x1 * x1 + x2 * x2)) in *. assert (R0 : 0 < r0) by (apply sqrt_lt_R0; nra). clearbody r0.
  split.
  - exists th, th'.
    assert (S3 : sin th' = sin (th + phi)).
    { rewrite sin_plus. apply (Rmult_eq_reg_l r0); [|lra]. rewrite <- S2, S1, C1. ring. }
    assert (C3 : cos th' = cos (th + phi)).
    { rewrite cos_plus. apply (Rmult_eq_reg_l r0); [|lra]. rewrite <- C2, S1, C1. ring. }
    destruct (sincos_inj th' (th + phi) S3 C3) as [k Hk]. exists k. split; [exact O1|]. split; [exact O2|]. exact Hk.
  - destruct (angle_form _ _ _ _ _ _ E) as (k1 & k2 & Q & _ & _). injection Q as -> _ -> _ ->.
    intros f HF. unfold potentials in HF. rewrite flat_map_app in HF. cbn [flat_map app] in HF. rewrite app_nil_r in HF.
    destruct reg as [q|]; cbn [angle_pot flat_map app] in HF; [|destruct HF]. destruct HF as [<-|[]].
    cbn [nmul nlog nadd npw NumT amap2 amap aget]. rewrite E1, E2, E3, E4. cbn [fmul fadd]. rewrite EN. reflexivity.
Qed.

Lemma angle_start : forall p name reg kw ss out v, angle p name reg kw = Ok (ss, out) -> requested kw (PNum v) ->
  forall e i th, at_start p ss e -> aget v i = Fin th -> - PI < th <= PI -> aget (out e) i = Fin th.
Proof.
  intros p name reg kw ss out v E HV e i th HE Hi Hth. destruct (angle_form _ _ _ _ _ _ E) as (kw1 & kw2 & -> & -> & z & v' & _ & EV & F1 & F2).
  rewrite (pop_requested _ _ _ HV) in EV. injection EV as <-.
  assert (e (angle1 name) = nsin v) as Q1 by (apply (HE [] _ "Normal"%string kw1); [left; reflexivity|exact (proj1 F1)]).
  assert (e (angle2 name) = ncos v) as Q2 by (apply (HE [] _ "Normal"%string kw2); [right; left; reflexivity|exact (proj1 F2)]).
  unfold angle_out. cbn [natan2 NumT amap2 aget]. rewrite Q1, Q2. cbn [nsin ncos NumT amap aget]. rewrite Hi. cbn [ftrig fatan2].
  rewrite <- (Rmult_1_l (sin th)), <- (Rmult_1_l (cos th)), Ratan2_polar_inv by lra. reflexivity.
Qed.
Lemma angle_start_default : forall p name reg kw ss out, angle p name reg kw = Ok (ss, out) -> not_requested kw ->
  forall e i, at_start p ss e -> aget (out e) i = Fin 0.
Proof.
  intros p name reg kw ss out E HV e i HE. destruct (angle_form _ _ _ _ _ _ E) as (kw1 & kw2 & -> & -> & z & v & EZ & EV & F1 & F2).
  rewrite (pop_default _ _ HV) in EV. injection EV as <-.
  assert (Hz : aget z i = Fin 0) by (destruct (match dget "shape" kw with Some s => s | None => PShape [] end); cbn in EZ; try discriminate EZ; injection EZ as <-; reflexivity).
  assert (e (angle1 name) = nsin z) as Q1 by (apply (HE [] _ "Normal"%string kw1); [left; reflexivity|exact (proj1 F1)]).
  assert (e (angle2 name) = ncos z) as Q2 by (apply (HE [] _ "Normal"%string kw2); [right; left; reflexivity|exact (proj1 F2)]).
  unfold angle_out. cbn [natan2 NumT amap2 aget]. rewrite Q1, Q2. cbn [nsin ncos NumT amap aget]. rewrite Hz. cbn [ftrig fatan2].
  rewrite <- (Rmult_1_l (sin 0)), <- (Rmult_1_l (cos 0)), Ratan2_polar_inv by (generalize PI_RGT_0; lra). reflexivity.
Qed.

(** ** unit_disk *)
Definition disk2 (name : string) : string := ("__" ++ name ++ "_unit_disk")%string.
Lemma disk_form {NT : Num tens btens} p nx ny kw ss x y : unit_disk p nx ny kw = Ok (ss, (x, y)) ->
  exists kw1 kw2 f, ss = [Free [] nx "Uniform" kw1; Free [] (disk2 ny) "Uniform" kw2; Potential [] (ny ++ "_jacobian")%string f; Determ [] ny y] /\
    x = (fun e => e nx) /\ y = (fun e => (e (disk2 ny) * nsqrt (nlit 1 - e nx ^ 2))%num) /\ f = (fun e => nlog (nsqrt (nlit 1 - e nx ^ 2)%num)) /\
    exists s z v v0 v1, tuple_of (match dget "shape" kw with Some s => s | None => PShape [] end) = Ok s /\
      np_zeros (PShape (s ++ [2%nat])) = Ok z /\ num_of (fst (pop_initval (PNum z) kw)) = Ok v /\ row v 0 = Ok v0 /\ row v 1 = Ok v1 /\
      forwarded p (between (-1) 1) (PNum v0) kw kw1 /\ forwarded p (between (-1) 1) (PNum (v1 * nsqrt (nlit 1 - v0 ^ 2))%num) kw kw2.
Proof.
  unfold unit_disk. destruct (tuple_of _) as [s|] eqn:ES; [|discriminate]. cbn [rbind]. cbn [np_zeros rbind].
  destruct (pop_initval _ kw) as [iv kw'] eqn:EP. destruct (num_of iv) as [v|] eqn:EV; [|discriminate]. cbn [rbind].
  destruct (row v 0) as [v0|] eqn:E0; [|discriminate]. cbn [rbind]. destruct (row v 1) as [v1|] eqn:E1; [|discriminate]. cbn [rbind].
  intro E. injection E as <- <- <-. do 3 eexists. split; [reflexivity|]. do 3 (split; [reflexivity|]).
  exists s. eexists. exists v, v0, v1. split; [reflexivity|]. split; [reflexivity|]. rewrite EP. cbn [fst]. do 3 (split; [assumption|]).
  match type of EP with ?P = _ => assert (EK : kw' = snd P) by (rewrite EP; reflexivity) end.
  subst kw'. split; apply forwarded_bounds.
Qed.
Lemma sq_lt a : -1 < a < 1 -> 0 < 1 - a * a.
Proof. nra. Qed.
Lemma fnorm a : -1 < a < 1 -> fsqrt (fsub (Fin 1) (fmul (Fin a) (Fin a))) = Fin (sqrt (1 - a * a)).
Proof. intro H. cbn [fmul fsub fadd fneg fsqrt]. fold (1 - a * a). unfold Rltb. destruct (Rlt_dec (1 - a * a) 0); [nra|reflexivity]. Qed.

Lemma disk_value : forall p nx ny kw ss x y, unit_disk p nx ny kw = Ok (ss, (x, y)) ->
  exists n1 n2 kw1 kw2 rest f g q, ss = Free [] n1 "Uniform" kw1 :: Free [] n2 "Uniform" kw2 :: rest /\ List.Forall no_variable rest /\
    on_interval (-1) 1 kw1 /\ on_interval (-1) 1 kw2 /\ n1 = nx /\ In (Determ [] ny y) rest /\ potentials rest = [q] /\
    (forall e i a b, aget (e n1) i = Fin a -> aget (e n2) i = Fin b -> -1 < a < 1 -> -1 < b < 1 ->
       aget (x e) i = Fin (f a b) /\ aget (y e) i = Fin (g a b) /\
       exists J, jacobian f g a b J /\ aget (q e) i = Fin (ln (Rabs J))) /\
    one_to_one f g (fun a b => -1 < a < 1 /\ -1 < b < 1) (fun u v => u * u + v * v < 1).
Proof.
  intros p nx ny kw ss x y E. destruct (disk_form _ _ _ _ _ _ _ E) as (kw1 & kw2 & f & -> & -> & -> & -> & F).
  exists nx, (disk2 ny), kw1, kw2. eexists. exists (fun a b => a), (fun a b => b * sqrt (1 - a * a)). eexists.
  split; [reflexivity|]. split; [repeat constructor; first [apply not_free_pot|apply not_free_det]|].
  destruct F as (? & ? & ? & ? & ? & _ & _ & _ & _ & _ & (_ & _ & F1 & _) & (_ & _ & F2 & _)).
  split; [exact F1|]. split; [exact F2|]. split; [reflexivity|]. split; [right; left; reflexivity|]. split; [reflexivity|]. split.
  - intros e i a b E1 E2 Ha Hb. split; [exact E1|]. split.
    + cbn [nmul nsqrt nsub nlit npw NumT amap2 amap alit aget]. rewrite E1, E2, fnorm by exact Ha. reflexivity.
    + assert (A := sq_lt a Ha). exists (sqrt (1 - a * a)). split.
      * exists 1, 0, (b * (- a / sqrt (1 - a * a))), (sqrt (1 - a * a)).
        split; [apply (is_derive_id (K := R_AbsRing))|]. split; [apply (is_derive_const (K := R_AbsRing) (V := R_NormedModule))|].
        split; [|split].
        -- auto_derive; [lra|]. replace (1 + - (a * a)) with (1 - a * a) by ring. assert (S := sqrt_lt_R0 _ A). field. lra.
        -- auto_derive; [exact I|]. ring.
        -- ring.
      * cbn [nlog nsqrt nsub nlit npw nmul NumT amap2 amap alit aget]. rewrite E1, fnorm by exact Ha. cbn [flog].
        assert (S := sqrt_lt_R0 _ A). unfold Rltb. destruct (Rlt_dec 0 (sqrt (1 - a * a))); [|lra]. rewrite (Rabs_pos_eq (sqrt (1 - a * a))) by lra. reflexivity.
  - split.
    + intros a b [Ha Hb]. assert (A := sq_lt a Ha). assert (Q := sqrt_sqrt (1 - a * a) ltac:(lra)).
      replace (b * sqrt (1 - a * a) * (b * sqrt (1 - a * a))) with (b * b * (1 - a * a)) by (rewrite <- Q at 1; ring).
      assert (B := sq_lt b Hb). assert (AB := Rmult_lt_0_compat _ _ A B). lra.
    + intros u v H. assert (Hu : -1 < u < 1) by nra. assert (A := sq_lt u Hu). assert (S := sqrt_lt_R0 _ A). assert (Q := sqrt_sqrt (1 - u * u) ltac:(lra)).
      exists u, (v / sqrt (1 - u * u)). split.
      { split; [exact Hu|]. assert (V : (v / sqrt (1 - u * u)) * (v / sqrt (1 - u * u)) < 1).
        { replace (v / sqrt (1 - u * u) * (v / sqrt (1 - u * u))) with (v * v / (sqrt (1 - u * u) * sqrt (1 - u * u))) by (field; lra). rewrite Q.
          apply (Rmult_lt_reg_r (1 - u * u)); [exact A|]. unfold Rdiv. rewrite Rmult_assoc, Rinv_l by lra. lra. }
        split; nra. }
      split; [reflexivity|]. split; [field; lra|].
      intros a' b' _ -> <-. split; [reflexivity|]. field. lra.
Qed.

Lemma row_get x n v i d : row x n = Ok v -> ash x = Ok d -> aget v i = aget x (set_ix (length d - 1) n i).
Proof.
  unfold row. intros E S. rewrite S in E. destruct d as [|a d]; [discriminate|]. destruct (Nat.ltb _ _); [|discriminate]. injection E as <-. reflexivity.
Qed.
Lemma disk_start : forall p nx ny kw ss x y v d, unit_disk p nx ny kw = Ok (ss, (x, y)) -> requested kw (PNum v) -> ash v = Ok d ->
  forall e i x0 y0, at_start p ss e -> aget v (set_ix (length d - 1) 0 i) = Fin x0 -> aget v (set_ix (length d - 1) 1 i) = Fin y0 -> -1 < x0 < 1 ->
    aget (x e) i = Fin x0 /\ aget (y e) i = Fin (y0 * (1 - x0 * x0)).
Proof.
  intros p nx ny kw ss x y v d E HV HD e i x0 y0 HE E0 E1 H0.
  destruct (disk_form _ _ _ _ _ _ _ E) as (kw1 & kw2 & f & -> & -> & -> & _ & s & z & v' & v0 & v1 & _ & _ & EV & R0 & R1 & F1 & F2).
  rewrite (pop_requested _ _ _ HV) in EV. injection EV as <-.
  rewrite <- (row_get _ _ _ i _ R0 HD) in E0. rewrite <- (row_get _ _ _ i _ R1 HD) in E1.
  assert (e nx = v0) as Q1 by (apply (HE [] _ "Uniform"%string kw1); [left; reflexivity|exact (proj1 F1)]).
  assert (e (disk2 ny) = (v1 * nsqrt (nlit 1 - v0 ^ 2))%num) as Q2 by (apply (HE [] _ "Uniform"%string kw2); [right; left; reflexivity|exact (proj1 F2)]).
  split; [rewrite Q1; exact E0|]. rewrite Q1, Q2. cbn [nmul nsqrt nsub nlit npw NumT amap2 amap alit aget]. rewrite E0, E1, fnorm by exact H0. cbn [fmul].
  f_equal. rewrite Rmult_assoc, sqrt_sqrt by nra. reflexivity.
Qed.
