(** * TTVOrbit: glue for P_ttv *)
From Coq Require Import Reals List Bool Arith ZArith Lra Lia Psatz Sorted String.
From Verif Require Import Num CoreOps Inst M_units M_kepler M_kwargs M_fin M_tensor M_ttv Spec_orbit Spec_params Spec_array Spec_ttv
  L_real L_fl L_fl2 L_kwargs L_params3 L_pmotion5 L_shape L_array L_ptransit L_ttv1 L_ttv2 L_ttv3 L_ttv4.
Import ListNotations.
Open Scope R_scope.
Local Notation length := List.length.

(** ** C33 *)
Lemma at_transits k n N o os tts t ts : consts_ok k -> ttv_system k n o os tts -> is_vector N t ->
  (forall m, (m < N)%nat -> aget t (at_time m) = Fin (ts m)) ->
  forall b, exists f g, is_table3 n N (tpos k o b t None false) f /\ is_table3 n N (tvel o b t) g /\
  forall m j, (m < N)%nat -> (j < n)%nat -> In (ts m) (tts j) ->
    f m j = fin3 (pos k (os j) b (o_t0 (os j)) None false) /\ g m j = fin3 (vel (os j) b (o_t0 (os j))).
Proof.
  intros kok sys Ht Hts b. destruct (ttv_tables k n N o os tts t ts kok sys Ht Hts) as (v & Hv & T). destruct (T b) as [T1 T2].
  eexists. eexists. split; [exact T1|]. split; [exact T2|]. intros m j Hm Hj Hin. cbv beta.
  assert (E : v m j = ts m) by (apply (nearest_unique (tts j) (ts m)); [apply Hv; assumption|apply nearest_self, Hin]).
  rewrite E. replace (o_t0 (os j) + (ts m - ts m)) with (o_t0 (os j)) by ring. auto.
Qed.
Lemma no_variation k n N x ttvs o os tts t ts : consts_ok k -> ttv_init k x = Ok o -> ta_ttvs x = Some ttvs ->
  (forall l, In l ttvs -> forall v, In v l -> v = Fin 0) ->
  ttv_system k n o os tts -> is_vector N t -> (forall m, (m < N)%nat -> aget t (at_time m) = Fin (ts m)) ->
  forall b, exists f g,
  is_table3 n N (tpos k o b t None false) f /\ is_table3 n N (pos k (tt_orbit o) b t None false) f /\
  is_table3 n N (tvel o b t) g /\ is_table3 n N (vel (tt_orbit o) b t) g.
Proof.
  intros kok Hx H1 H0 sys Ht Hts b. destruct (ttv_tables k n N o os tts t ts kok sys Ht Hts) as (v & Hv & T). destruct (T b) as [T1 T2].
  destruct (tv_under _ _ _ _ _ sys) as (y & ys & Hy & S). destruct (system_tables k n N y ys os t ts kok S Ht Hts) as (o' & Ho & T').
  rewrite Hy in Ho. apply Ok_inj in Ho. subst o'. destruct (T' b) as (T3 & T4 & _).
  eexists. eexists. split; [exact T1|]. split; [refine (table3_ext _ _ _ _ _ _ T3)|]. 2: split; [exact T2|refine (table3_ext _ _ _ _ _ _ T4)].
  all: intros m j Hm Hj; cbv beta; destruct (zero_ttvs k n o os tts kok sys x ttvs Hx H1 H0 j (v m j) Hj) as (q & E); [apply (Hv m j Hm Hj)|];
    rewrite E; replace (o_t0 (os j) + (ts m - (o_t0 (os j) + IZR q * o_period (os j)))) with (ts m + IZR (- q) * o_period (os j)) by (rewrite opp_IZR; ring);
    destruct (periodic_motion k (ys j) (os j) (ts m) (- q) None false None None kok (sy_init _ _ _ _ _ S j Hj) (sy_phys _ _ _ _ _ S j Hj)) as (P & _);
    destruct (P b) as (P1 & P2 & _); rewrite ?P1, ?P2; reflexivity.
Qed.

(** ** C36 *)
Section L.
Variables (n N : nat).
Definition S3 : res shape := bcr (Ok [n; N]) (Ok [n; n; N]).
Definition X3 {A} (a : arr A) : Prop := ash a = S3.
Lemma S3_cases : S3 = Err ShapeErr \/ exists q, S3 = Ok [n; q; N].
Proof.
  unfold S3. cbn. rewrite Nat.eqb_refl. destruct (Nat.eqb N n); [right; eexists; reflexivity|]. destruct (Nat.eqb N 1); [right; eexists; reflexivity|].
  destruct (Nat.eqb n 1); [right; eexists; reflexivity|left; reflexivity].
Qed.
Lemma X3_map {A C} (f : A -> C) a : X3 a -> X3 (amap f a). Proof. intro H. exact H. Qed.
Lemma X3_map2 {A C D} (f : A -> C -> D) a b : X3 a -> X3 b -> X3 (amap2 f a b).
Proof. unfold X3. cbn [ash amap2]. intros -> ->. destruct S3_cases as [E|(q & E)]; rewrite E; [reflexivity|]. cbn. rewrite !Nat.eqb_refl. reflexivity. Qed.
Lemma X3_map2l {A C D} (f : A -> C -> D) a b : X3 a -> Sn n b -> X3 (amap2 f a b).
Proof. unfold X3. cbn [ash amap2]. intros -> [[Hb _]|[Hb _]]; rewrite Hb; destruct S3_cases as [E|(q & E)]; rewrite E; try reflexivity; cbn; rewrite ?Nat.eqb_refl; reflexivity. Qed.
Lemma X3_map2r {A C D} (f : A -> C -> D) a b : Sn n a -> X3 b -> X3 (amap2 f a b).
Proof. unfold X3. cbn [ash amap2]. intros [[Hb _]|[Hb _]] ->; rewrite Hb; destruct S3_cases as [E|(q & E)]; rewrite E; try reflexivity; cbn; rewrite ?Nat.eqb_refl; reflexivity. Qed.
Ltac sn := first
  [ assumption
  | apply (Sn_lit)
  | apply En_Sn; assumption
  | apply Sn_map; sn | apply Sn_map2; sn | apply Sn_map3; sn ].
Ltac x3 := first [ assumption | apply X3_map; x3 | apply X3_map2; x3 | apply X3_map2l; [x3|sn] | apply X3_map2r; [sn|x3] ].

Variables (k : consts) (o : ttvorbit) (os : nat -> orbit R) (tts : nat -> list R).
Hypothesis kok : consts_ok k.
Hypothesis sys : ttv_system k n o os tts.

Lemma warp_X3 t : ash t = Ok [n; N] -> X3 (ttv_warp o false t).
Proof.
  intro E. unfold X3, ttv_warp, ttv_model_dt. destruct (n_len k n o os tts sys) as [L _]. assert (Hn := n_pos k n o os tts sys). cbn [nsub NumT amap2 ash]. rewrite L, E.
  destruct (Nat.eqb_spec n 0); [lia|]. reflexivity.
Qed.
Lemma rot_X3 (x y : tens) : X3 x -> X3 y -> let v := rotate_vector (tt_orbit o) x y in X3 (fst (fst v)) /\ X3 (snd (fst v)) /\ X3 (snd v).
Proof.
  intros Hx Hy. destruct (under_facts k n 0 o os tts kok sys) as (So & _). assert (S1 := os_ecc _ _ So). assert (S2 := os_Om _ _ So). assert (S3' := os_ci _ _ So). assert (S4 := os_si _ _ So).
  unfold rotate_vector.
  assert (K : forall X Y : tens, X3 X -> X3 Y ->
     let v := (let x2 := X in let y2 := (o_cos_incl (tt_orbit o) * Y)%num in let Z := (- o_sin_incl (tt_orbit o) * Y)%num in
       match o_Omega (tt_orbit o) with None => (x2, y2, Z) | Some w0 => ((O_cos w0 * x2 - O_sin w0 * y2)%num, (O_sin w0 * x2 + O_cos w0 * y2)%num, Z) end) in
     X3 (fst (fst v)) /\ X3 (snd (fst v)) /\ X3 (snd v)).
  { intros X Y HX HY. cbv zeta. destruct (o_Omega (tt_orbit o)) as [w0|]; cbn [fst snd].
    - destruct S2 as [S2 S2']. split; [x3|split; x3].
    - split; [x3|split; x3]. }
  destruct (o_ecc (tt_orbit o)) as [d|].
  - destruct S1 as (_ & Sc & Ss). apply K; x3.
  - apply K; assumption.
Qed.
Lemma pos_X3 (a t : tens) : Sn n a -> ash t = Ok [n; N] ->
  let v := position_nodelay k (tt_orbit o) (ttv_warp o) a t None false in X3 (fst (fst v)) /\ X3 (snd (fst v)) /\ X3 (snd v).
Proof.
  intros Ha Ht. destruct (under_facts k n 0 o os tts kok sys) as (So & Eno & _). assert (S1 := os_ecc _ _ So). assert (S2 := os_tref _ _ So). assert (S3' := os_n _ _ So).
  assert (W := warp_X3 t Ht). unfold position_nodelay, true_anomaly. set (M := (_ * o_n (tt_orbit o))%num).
  assert (XM : X3 M) by (unfold M; x3).
  destruct (o_ecc (tt_orbit o)) as [d|].
  - destruct S1 as (Se & _ & _). apply rot_X3; x3.
  - apply rot_X3; x3.
Qed.

Ltac en := first [ assumption | apply EN_map; en | apply EN_map2; en | apply EN_map2l; [en|sn] | apply EN_map2r; [sn|en] ].
Lemma light_X3 (a t : tens) par : Sn n a -> ash t = Ok [N] ->
  let v := get_position k (tt_orbit o) (ttv_warp o) a t par true true in X3 (fst (fst v)) /\ X3 (snd (fst v)) /\ X3 (snd v).
Proof.
  intros Ha Ht. destruct (under_facts k n N o os tts kok sys) as (So & Eno & W0 & _).
  assert (W1 := w'_T1 k n N o os tts sys). set (w := w' o) in *.
  cbv zeta. unfold get_position, retarded_position, retarded_state.
  change (true_anomaly (tt_orbit o) (ttv_warp o) true t) with (true_anomaly (tt_orbit o) w true t).
  assert (T := ta_shape n N (tt_orbit o) So Eno w W1 W0 true t Ht).
  destruct (true_anomaly (tt_orbit o) w true t) as [s c].
  cbn [fst snd] in T. destruct T as [Ts Tc]. assert (S1 := os_ecc _ _ So). assert (S2 := os_period _ _ So). assert (S3' := os_si _ _ So).
  assert (Q := padr_T1 n N t Ht).
  assert (D : forall v0 z az, EN n N v0 -> EN n N z -> EN n N az -> EN n N (npadr t - light_delay_of k (nlit 0) v0 z az)%num).
  { intros v0 z az H1 H2 H3. apply T1_EN; [exact Q|]. unfold light_delay_of. apply EN_map3; en. }
  destruct (o_ecc (tt_orbit o)) as [d|] eqn:Ee.
  - destruct S1 as (Se & Sc & Ss).
    set (r := (a * _ / _)%num). assert (Er : EN n N r) by (unfold r; en).
    assert (R := fun H1 H2 => rot_shape n N (tt_orbit o) So (r * c)%num (r * s)%num H1 H2 _ eq_refl).
    destruct (rotate_vector (tt_orbit o) (r * c)%num (r * s)%num) as [[X Y] Z]. cbn [fst snd] in R. destruct R as (_ & _ & RZ); [en|en|].
    apply pos_X3; [exact Ha|]. cbv beta iota. apply D; en.
  - assert (R := fun H1 H2 => rot_shape n N (tt_orbit o) So (a * c)%num (a * s)%num H1 H2 _ eq_refl).
    destruct (rotate_vector (tt_orbit o) (a * c)%num (a * s)%num) as [[X Y] Z]. cbn [fst snd] in R. destruct R as (_ & _ & RZ); [en|en|].
    apply pos_X3; [exact Ha|]. cbv beta iota. apply D; en.
Qed.
End L.

Definition delayed_shape (n N : nat) : res shape :=
  if Nat.eqb n 1 then Ok (squeezed [N; N])
  else if Nat.eqb N 1 then Ok [n; n]
  else if Nat.eqb N n then Ok [n; n; n]
  else Err ShapeErr.
Lemma sqz_X3 n N (a : tens) : (0 < n)%nat -> X3 n N a -> ash (asqz a) = delayed_shape n N.
Proof.
  unfold X3, S3, delayed_shape. intros Hn E. unfold asqz. cbn [ash]. rewrite E. cbn [bcr bc]. rewrite Nat.eqb_refl.
  destruct (Nat.eqb_spec n 1) as [->|N1].
  - destruct (Nat.eqb_spec N 1) as [->|N2]; [reflexivity|]. cbn. destruct (Nat.eqb_spec N 1); [congruence|]. cbn. reflexivity.
  - destruct (Nat.eqb_spec N 1) as [->|N2].
    + destruct (Nat.eqb_spec 1 n); [congruence|]. cbn. destruct (Nat.eqb_spec n 1); [congruence|]. reflexivity.
    + destruct (Nat.eqb_spec N n) as [->|N3]; [|reflexivity]. cbn. destruct (Nat.eqb_spec n 1); [congruence|]. reflexivity.
Qed.
Lemma ttv_light_delay k n N o os tts t par b : consts_ok k -> ttv_system k n o os tts -> is_vector N t ->
  let v := tpos k o b t par true in
  ash (fst (fst v)) = delayed_shape n N /\ ash (snd (fst v)) = delayed_shape n N /\ ash (snd v) = delayed_shape n N.
Proof.
  intros kok sys Ht. destruct (under_facts k n N o os tts kok sys) as (So & _). assert (Hn := n_pos k n o os tts sys).
  assert (G : forall a, Sn n a -> let v := sqz3 (get_position k (tt_orbit o) (ttv_warp o) a t par true true) in
    ash (fst (fst v)) = delayed_shape n N /\ ash (snd (fst v)) = delayed_shape n N /\ ash (snd v) = delayed_shape n N).
  { intros a Ha. destruct (light_X3 n N k o os tts kok sys a t par Ha (proj2 Ht)) as (A & B & C). rewrite sqz3_unf. cbv zeta. cbn [fst snd].
    split; [apply (sqz_X3 n N _ Hn A)|]. split; [apply (sqz_X3 n N _ Hn B)|apply (sqz_X3 n N _ Hn C)]. }
  destruct b; unfold tpos, get_planet_position, get_star_position, get_relative_position; apply G.
  - apply (os_ap _ _ So).
  - apply (os_as _ _ So).
  - apply (Sn_map n fneg), (os_a _ _ So).
Qed.
Lemma kepler_light_delay k n N x xs os o t par b ld : consts_ok k -> system k n x xs os -> kep_init k x = Ok o -> is_vector N t -> opt_per_planet n par ->
  let v := pos k o b t par ld in
  ash (fst (fst v)) = Ok (squeezed [n; N]) /\ ash (snd (fst v)) = Ok (squeezed [n; N]) /\ ash (snd v) = Ok (squeezed [n; N]).
Proof.
  intros kok S H Ht Hp.
  assert (Hf : forall j, (j < n)%nat -> kep_init k (args_at (at_planet j) x) = Ok (fin_orbit (os j))).
  { intros j Hj. rewrite (sy_at _ _ _ _ _ S j Hj). apply kep_init_fin; [assumption|apply (sy_init _ _ _ _ _ S j Hj)|apply (sy_phys _ _ _ _ _ S j Hj)|apply (sy_dur _ _ _ _ _ S j Hj)]. }
  destruct (planets_tables k n N x o t (fun j => fin_orbit (os j)) par ld b (sy_args _ _ _ _ _ S) H Ht Hp Hf) as (((A & _) & (B & _) & (C & _)) & _).
  cbv zeta. auto.
Qed.

(** ** C37 *)
Lemma ttv_delta k x o times d i P dv : ttv_init k x = Ok o -> ta_ttvs x = None -> ta_times x = Some times ->
  lookup "period" (ta_kw x) = None -> lookup "delta_log_period" (ta_kw x) = Some (KNum d) ->
  entry (tt_period o) i = Fin P -> 0 < P -> entry (qv d) i = Fin dv ->
  entry (o_period (tt_orbit o)) i = Fin (P * exp dv).
Proof.
  intros H H1 H2 Np Nd EP HP Ed. destruct (times_init k x o times H H1 H2) as (_ & _ & _ & (kw & Ek & Ec) & _).
  unfold ttv_kwargs in Ek. cbn [lookup] in Ek. change (String.eqb "period" "t0") with false in Ek. change (String.eqb "delta_log_period" "t0") with false in Ek.
  cbv iota in Ek. rewrite Np, Nd in Ek. apply Ok_inj in Ek.
  assert (E : o_period (tt_orbit o) = nexp (nlog (tt_period o) + qv d)%num) by (apply (call_period k kw _ _ Ec); subst kw; reflexivity).
  rewrite E. unfold entry in *. cbn [nexp nlog nadd NumT aget amap amap2]. rewrite EP, Ed.
  unfold flog. rewrite Rltb_true by lra. cbn. f_equal. rewrite exp_plus, exp_ln by lra. reflexivity.
Qed.
