(** * Arrays of times of any shape: orbits *)
From Coq Require Import Reals Lra Lia List Bool Arith ZArith.
From Verif Require Import Num CoreOps Inst CoreFlux M_units M_kepler M_fin M_tensor M_simple M_ttv M_limbdark Spec_orbit Spec_params Spec_array Spec_simple Spec_ttv Spec_light Spec_undef Spec_ravel
  L_real L_orbit L_params3 L_fl L_flux L_tens L_shape L_transit3 L_transit4 L_shapeS L_reshape L_array L_light1 L_light2 L_light3 L_light4 L_light7 L_simple L_simple2 L_ttv3 L_ttv7 L_undef L_undef2 L_undef3.
Import ListNotations.
Local Notation length := List.length.
Open Scope R_scope.

Lemma lin_unlin s l : (l < prod s)%nat -> lin s (unlin s l) = l.
Proof.
  revert l. induction s as [|d s IH]; intros l Hl; [cbn in Hl |- *; lia|]. change (prod (d :: s)) with (d * prod s)%nat in Hl. assert (Hd : d <> O) by lia.
  cbn [lin unlin cons_ix]. change (fun k => unlin s (l / d) k) with (unlin s (l / d)). rewrite IH by (apply Nat.div_lt_upper_bound; assumption).
  assert (M := Nat.mod_upper_bound l d Hd). replace (if Nat.eqb d 1 then O else (l mod d)%nat) with (l mod d)%nat by (destruct (Nat.eqb_spec d 1); lia).
  symmetry. rewrite Nat.add_comm. apply Nat.div_mod. exact Hd.
Qed.

(** X lists f of the planet and the time *)
Definition listing (n : nat) (s : shape) (t X : tens) (f : nat -> fl -> fl) : Prop :=
  ash X = Ok (squeezed (n :: s)) /\ forall q, (q < n * prod s)%nat -> flat X q = f (q mod n)%nat (flat t (q / n)).
Lemma listing_of n s t X f : ash t = Ok s -> twf t -> ash X = Ok (n :: s) ->
  (forall i, (i O < n)%nat -> aget X i = f (i O) (aget t (fun k => i (S k)))) -> listing n s t (asqz X) f.
Proof.
  intros Et Wt SX V. split; [unfold asqz; cbn [ash]; rewrite SX; reflexivity|]. intros q Hq.
  assert (Hl : (q < prod (n :: s))%nat) by exact Hq. assert (Hi := unlin_inside (n :: s) q Hl).
  destruct (flat_squeezed X (n :: s) (unlin (n :: s) q) SX Hi) as (i' & Ei & E). rewrite (lin_unlin _ _ Hl) in E. rewrite E.
  assert (E0 : i' O = (q mod n)%nat) by (rewrite (Ei O) by (cbn; lia); reflexivity).
  rewrite V by (rewrite E0; apply Nat.mod_upper_bound; destruct n; [cbn in Hq; lia|discriminate]). rewrite E0. f_equal. unfold flat. rewrite Et. apply (Wt _ Et).
  intros k Hk. rewrite (Ei (S k)); [reflexivity|]. cbn. destruct (le_lt_dec (length s) k) as [L|L]; [|lia]. rewrite nth_overflow in Hk by exact L. contradiction.
Qed.
Lemma any_of n F f : (forall s t, ash t = Ok s -> twf t -> listing n s t (F t) f) -> any_shape n F.
Proof.
  intros H s t s' t' [E E' W W' P V]. destruct (H s t E W) as [S1 L1]. destruct (H s' t' E' W') as [S2 L2]. split; [exact S1|]. split; [exact S2|].
  intros q Hq. rewrite L1 by exact Hq. rewrite L2 by (rewrite <- P; exact Hq). f_equal. apply V. apply Nat.div_lt_upper_bound; [destruct n; [cbn in Hq; lia|discriminate]|exact Hq].
Qed.
Lemma any3_of n (V : tens -> tens * tens * tens) f :
  (forall s t, ash t = Ok s -> twf t -> ENS n s (fst (fst (V t))) /\ ENS n s (snd (fst (V t))) /\ ENS n s (snd (V t))) ->
  (forall s t i, ash t = Ok s -> (i O < n)%nat -> map_vec (fun a : tens => aget a i) (V t) = f (i O) (aget t (fun k => i (S k)))) ->
  any_shape3 n (fun t => sqz3 (V t)).
Proof.
  intros HS HV. assert (G : forall (p : tens * tens * tens -> tens) (p' : fl * fl * fl -> fl), (forall i v, aget (p v) i = p' (map_vec (fun a : tens => aget a i) v)) ->
     (forall s t, ash t = Ok s -> twf t -> ENS n s (p (V t))) -> any_shape n (fun t => asqz (p (V t)))).
  { intros p p' Hp Hs. apply (any_of n _ (fun j t => p' (f j t))). intros s t Et Wt. apply listing_of; [exact Et|exact Wt|apply Hs; assumption|].
    intros i Hi. rewrite Hp, (HV s t i Et Hi). reflexivity. }
  split; [|split].
  - assert (Q := G (fun v => fst (fst v)) (fun v => fst (fst v)) ltac:(intros i [[? ?] ?]; reflexivity) ltac:(intros s t Et Wt; apply (HS s t Et Wt))).
    intros s t s' t' H. rewrite !sqz3_unf. exact (Q s t s' t' H).
  - assert (Q := G (fun v => snd (fst v)) (fun v => snd (fst v)) ltac:(intros i [[? ?] ?]; reflexivity) ltac:(intros s t Et Wt; apply (HS s t Et Wt))).
    intros s t s' t' H. rewrite !sqz3_unf. exact (Q s t s' t' H).
  - assert (Q := G (fun v => snd v) (fun v => snd v) ltac:(intros i [[? ?] ?]; reflexivity) ltac:(intros s t Et Wt; apply (HS s t Et Wt))).
    intros s t s' t' H. rewrite !sqz3_unf. exact (Q s t s' t' H).
Qed.

(** ** Shapes of velocities and accelerations *)
Section S.
Variable n : nat.
Variable D : shape.
Ltac sn := first
  [ assumption | apply (Sn_lit n) | apply En_Sn; assumption
  | apply Sn_map; sn | apply Sn_map2; sn | apply Sn_map3; sn ].
Ltac en := first
  [ assumption
  | apply ENS_map; en
  | apply ENS_map2; en
  | apply ENS_map2l; [en|sn]
  | apply ENS_map2r; [sn|en]
  | apply ENS_map3; en ].
Variable o : orbit tens.
Hypothesis So : orbit_sn n o.
Hypothesis Eno : En n (o_n o).
Variable w : bool -> tens -> tens.
Hypothesis Hw1 : forall t, ash t = Ok D -> T1S n D (w true t).
Hypothesis Hw0 : forall t, ENS n D t -> ENS n D (w false t).
Lemma vel_shapeS (m t : tens) : Sn n m -> ash t = Ok D ->
  forall v, v = get_velocity o w m t -> ENS n D (fst (fst v)) /\ ENS n D (snd (fst v)) /\ ENS n D (snd v).
Proof.
  intros Hm Ht v ->. unfold get_velocity. assert (T := ta_shapeS n D o So Eno w Hw1 Hw0 true t Ht). destruct (true_anomaly o w true t) as [s c].
  cbn [fst snd] in T. destruct T as [Ts Tc]. assert (S1 := os_ecc _ _ So). assert (S2 := os_K0 _ _ So).
  destruct (o_ecc o) as [d|]; [destruct S1 as (? & _ & _)|]; (eapply (rot_shapeS n D o So); [| |reflexivity]); en.
Qed.
Lemma acc_shapeS (a m t : tens) : Sn n a -> Sn n m -> ash t = Ok D ->
  forall v, v = get_acceleration o w a m t -> ENS n D (fst (fst v)) /\ ENS n D (snd (fst v)) /\ ENS n D (snd v).
Proof.
  intros Ha Hm Ht v ->. unfold get_acceleration. assert (T := ta_shapeS n D o So Eno w Hw1 Hw0 true t Ht). destruct (true_anomaly o w true t) as [s c].
  cbn [fst snd] in T. destruct T as [Ts Tc]. assert (S1 := os_ecc _ _ So). assert (S2 := os_K0 _ _ So).
  destruct (o_ecc o) as [d|]; [destruct S1 as (? & _ & _)|]; (eapply (rot_shapeS n D o So); [| |reflexivity]); en.
Qed.
End S.

(** ** KeplerianOrbit *)
Section K.
Variables (k : consts) (n : nat) (x : kargs tens) (o : orbit tens).
Hypothesis Px : planet_args n x.
Hypothesis Hx : kep_init k x = Ok o.
Let og j := orbit_at (at_planet j) o.
Let So := proj1 (kep_init_sn n k x o Px Hx).
Let Eno := proj1 (proj2 (kep_init_sn n k x o Px Hx)).
Lemma kwT1S s t : ash t = Ok s -> T1S n s (kep_warp o true t).
Proof. intro E. apply (T1S_map2l n s fsub); [apply padr_T1S; exact E|apply (os_t0 _ _ So)]. Qed.
Lemma kwENS s t : ENS n s t -> ENS n s (kep_warp o false t).
Proof. intro E. apply (ENS_map2l n s fsub); [exact E|apply (os_t0 _ _ So)]. Qed.
Lemma par_ix par i : opt_per_planet n par -> option_map (fun v : tens => aget v i) par = opt_at_planet (i O) par.
Proof. intro H. destruct par as [a|]; [|reflexivity]. cbn in *. f_equal. apply (sn_at n a i (pp_sn n a H)). Qed.

Lemma posA (a : tens) (f : orbit fl -> fl) par ld : Sn n a -> (forall i, aget a i = f (orbit_at i o)) -> opt_per_planet n par ->
  (forall s t, ash t = Ok s -> twf t -> let V := get_position k o (kep_warp o) a t par ld true in ENS n s (fst (fst V)) /\ ENS n s (snd (fst V)) /\ ENS n s (snd V)) /\
  (forall s t i, ash t = Ok s -> (i O < n)%nat -> map_vec (fun v : tens => aget v i) (get_position k o (kep_warp o) a t par ld true)
     = get_position k (og (i O)) (kep_warp (og (i O))) (f (og (i O))) (aget t (fun d => i (S d))) (opt_at_planet (i O) par) ld true).
Proof.
  intros Sa Ea Hp. split.
  - intros s t Et _ V. apply (pos_shapeS n s k o So Eno (kep_warp o) (kwT1S s) (kwENS s) a t par ld Sa (opp_sn n _ Hp) Et V eq_refl).
  - intros s t i Et Hi. rewrite (get_position_at k i o (kep_warp o) (kep_warp (orbit_at i o)) (kep_warp_at1 o i) (kep_warp_at0 o i)).
    rewrite Ea, (og_at k n x o Px Hx i), (par_ix par i Hp). reflexivity.
Qed.
Lemma pos_any b par ld : opt_per_planet n par -> any_shape3 n (fun t => pos k o b t par ld).
Proof.
  intro Hp. assert (Q : forall (a : tens) (f : orbit fl -> fl), Sn n a -> (forall i, aget a i = f (orbit_at i o)) -> any_shape3 n (fun t => sqz3 (get_position k o (kep_warp o) a t par ld true))).
  { intros a f Sa Ea. destruct (posA a f par ld Sa Ea Hp) as [H1 H2]. exact (any3_of n _ (fun j t => get_position k (og j) (kep_warp (og j)) (f (og j)) t (opt_at_planet j par) ld true) H1 H2). }
  destruct b; unfold pos, get_planet_position, get_star_position, get_relative_position.
  - apply (Q _ (fun o => o_a_planet o)); [apply (os_ap _ _ So)|reflexivity].
  - apply (Q _ (fun o => o_a_star o)); [apply (os_as _ _ So)|reflexivity].
  - apply (Q _ (fun o => (- o_a o)%num)); [apply (Sn_map n fneg), (os_a _ _ So)|reflexivity].
Qed.
Lemma velA (m : tens) (f : orbit fl -> fl) : Sn n m -> (forall i, aget m i = f (orbit_at i o)) -> any_shape3 n (fun t => sqz3 (get_velocity o (kep_warp o) m t)).
Proof.
  intros Sm Em. apply (any3_of n _ (fun j t => get_velocity (og j) (kep_warp (og j)) (f (og j)) t)).
  - intros s t Et _. apply (vel_shapeS n s o So Eno (kep_warp o) (kwT1S s) (kwENS s) m t Sm Et _ eq_refl).
  - intros s t i Et Hi. rewrite (vel_at i o (kep_warp o) (kep_warp (orbit_at i o)) (kep_warp_at1 o i) (kep_warp_at0 o i)), Em, (og_at k n x o Px Hx i). reflexivity.
Qed.
Lemma vel_any b : any_shape3 n (fun t => vel o b t).
Proof.
  destruct b; unfold vel, get_planet_velocity, get_star_velocity, get_relative_velocity.
  - apply (velA _ (fun o => (- o_m_star o)%num)); [apply (Sn_map n fneg), (os_ms _ _ So)|reflexivity].
  - apply (velA _ (fun o => o_m_planet o)); [apply (os_mp _ _ So)|reflexivity].
  - apply (velA _ (fun o => (- o_m_total o)%num)); [apply (Sn_map n fneg), (os_mt _ _ So)|reflexivity].
Qed.
Lemma acc_any b : any_shape3 n (fun t => acc o b t).
Proof.
  assert (Q : forall (a m : tens) (f h : orbit fl -> fl), Sn n a -> (forall i, aget a i = f (orbit_at i o)) -> Sn n m -> (forall i, aget m i = h (orbit_at i o)) -> any_shape3 n (fun t => sqz3 (get_acceleration o (kep_warp o) a m t))).
  { intros a m f h Sa Ea Sm Em. apply (any3_of n _ (fun j t => get_acceleration (og j) (kep_warp (og j)) (f (og j)) (h (og j)) t)).
    - intros s t Et _. apply (acc_shapeS n s o So Eno (kep_warp o) (kwT1S s) (kwENS s) a m t Sa Sm Et _ eq_refl).
    - intros s t i Et Hi. rewrite (acc_at i o (kep_warp o) (kep_warp (orbit_at i o)) (kep_warp_at1 o i) (kep_warp_at0 o i)), Ea, Em, (og_at k n x o Px Hx i). reflexivity. }
  destruct b; unfold acc, get_planet_acceleration, get_star_acceleration, get_relative_acceleration.
  - apply (Q _ _ (fun o => o_a_planet o) (fun o => (- o_m_star o)%num)); [apply (os_ap _ _ So)|reflexivity|apply (Sn_map n fneg), (os_ms _ _ So)|reflexivity].
  - apply (Q _ _ (fun o => o_a_star o) (fun o => o_m_planet o)); [apply (os_as _ _ So)|reflexivity|apply (os_mp _ _ So)|reflexivity].
  - apply (Q _ _ (fun o => (- o_a o)%num) (fun o => (- o_m_total o)%num)); [apply (Sn_map n fneg), (os_a _ _ So)|reflexivity|apply (Sn_map n fneg), (os_mt _ _ So)|reflexivity].
Qed.
Lemma angles_any par ld : opt_per_planet n par ->
  any_shape n (fun t => fst (get_relative_angles k o (kep_warp o) t par ld)) /\ any_shape n (fun t => snd (get_relative_angles k o (kep_warp o) t par ld)).
Proof.
  intro Hp. assert (Sa : Sn n (- o_a o)%num) by apply (Sn_map n fneg), (os_a _ _ So).
  destruct (posA (- o_a o)%num (fun o : orbit fl => fneg (o_a o)) par ld Sa (fun i => eq_refl) Hp) as [H1 H2]. cbv zeta in H1.
  set (P := fun j t => get_position k (og j) (kep_warp (og j)) (fneg (o_a (og j))) t (opt_at_planet j par) ld true) in *.
  assert (Q : forall s t, ash t = Ok s -> twf t ->
    listing n s t (fst (get_relative_angles k o (kep_warp o) t par ld)) (fun j t => nsqrt (fst (fst (P j t)) ^ 2 + snd (fst (P j t)) ^ 2)%num) /\
    listing n s t (snd (get_relative_angles k o (kep_warp o) t par ld)) (fun j t => natan2 (snd (fst (P j t))) (fst (fst (P j t))))).
  { intros s t Et Wt. specialize (H1 s t Et Wt). assert (H3 := fun i => H2 s t i Et). unfold get_relative_angles.
    destruct (get_position k o (kep_warp o) (- o_a o)%num t par ld true) as [[X Y] Z]. cbn [fst snd] in *. destruct H1 as (SX & SY & SZ).
    split; apply listing_of; try assumption.
    - apply ENS_map; apply ENS_map2; apply ENS_map2; assumption.
    - intros i Hi. unfold P. rewrite <- (H3 i Hi). reflexivity.
    - apply ENS_map2; assumption.
    - intros i Hi. unfold P. rewrite <- (H3 i Hi). reflexivity. }
  split; eapply any_of; intros s t Et Wt; apply (Q s t Et Wt).
Qed.
Lemma rv_list K u s t X : opt_per_planet n K -> ash t = Ok s -> twf t -> get_radial_velocity k o (kep_warp o) t K u = Ok X ->
  listing n s t X (fun j t => match get_radial_velocity k (og j) (kep_warp (og j)) t (opt_at_planet j K) u with Ok v => v | Err _ => NaN end).
Proof.
  intros HK Et Wt H. unfold get_radial_velocity in *. destruct K as [K|].
  - cbn in HK. apply pp_sn in HK. assert (TS := ta_shapeS n s o So Eno (kep_warp o) (kwT1S s) (kwENS s) true t Et).
    assert (TA := fun i => ta_at i o (kep_warp o) (kep_warp (orbit_at i o)) (kep_warp_at1 o i) (kep_warp_at0 o i) true t).
    destruct (true_anomaly o (kep_warp o) true t) as [sf c]. cbn [fst snd] in TS. destruct TS as [TS TC].
    injection H. intro HX. subst X. clear H. assert (S9 := os_ecc _ _ So). cbn [opt_at_planet option_map].
    destruct (o_ecc o) as [d|] eqn:Eo.
    + destruct S9 as (S91 & S92 & S93). apply listing_of; try assumption.
      { apply ENS_map2r; [assumption|]. apply ENS_map2l; [|apply Sn_map2; assumption]. apply ENS_map2; (apply ENS_map2r; assumption). }
      intros i Hi. specialize (TA i). cbv beta iota in TA. unfold og. rewrite <- (og_at k n x o Px Hx i). rewrite <- TA. unfold orbit_at. cbn [map_orbit o_ecc]. rewrite Eo.
      cbn [option_map map_eccd e_ecc e_cosw e_sinw]. rewrite <- (sn_at n K i HK). reflexivity.
    + apply listing_of; try assumption.
      { apply ENS_map2r; assumption. }
      intros i Hi. specialize (TA i). cbv beta iota in TA. unfold og. rewrite <- (og_at k n x o Px Hx i). rewrite <- TA. unfold orbit_at. cbn [map_orbit o_ecc]. rewrite Eo.
      cbn [option_map]. rewrite <- (sn_at n K i HK). reflexivity.
  - destruct (uto (u_Rsun_per_day k) _) as [c|] eqn:Eu; [|discriminate H]. cbn [rbind] in *. cbn [opt_at_planet option_map].
    unfold get_star_velocity in *.
    assert (Sv := vel_shapeS n s o So Eno (kep_warp o) (kwT1S s) (kwENS s) (o_m_planet o) t (os_mp _ _ So) Et _ eq_refl).
    assert (Va := fun i => vel_at i o (kep_warp o) (kep_warp (orbit_at i o)) (kep_warp_at1 o i) (kep_warp_at0 o i) (o_m_planet o) t).
    destruct (get_velocity o (kep_warp o) (o_m_planet o) t) as [[VX VY] VZ]. cbn [fst snd] in Sv. destruct Sv as (_ & _ & SZ).
    cbn [sqz3] in H. injection H. intro HX. subst X. clear H.
    assert (L : listing n s t (asqz VZ) (fun j t => snd (get_velocity (og j) (kep_warp (og j)) (o_m_planet (og j)) t))).
    { apply listing_of; try assumption. intros i Hi. specialize (Va i). unfold og. rewrite <- (og_at k n x o Px Hx i). change (aget (o_m_planet o) i) with (o_m_planet (orbit_at i o)) in Va. rewrite <- Va. reflexivity. }
    destruct L as [L1 L2]. change (@nsqz tens btens NumT) with (@asqz fl). split.
    { cbn. unfold asqz in L1. cbn [ash] in L1. rewrite L1. reflexivity. }
    intros q Hq. specialize (L2 q Hq).
    destruct (get_velocity (og (q mod n)) (kep_warp (og (q mod n))) (o_m_planet (og (q mod n))) (flat t (q / n))) as [[a b] c']. cbn [sqz3 snd] in *. rewrite <- L2.
    unfold flat. cbn [nmul nlit NumT amap2 alit ash aget]. rewrite L1. reflexivity.
Qed.
Lemma rv_any K u s t s' t' X : opt_per_planet n K -> same_list s t s' t' -> get_radial_velocity k o (kep_warp o) t K u = Ok X ->
  exists X', get_radial_velocity k o (kep_warp o) t' K u = Ok X' /\ ash X = Ok (squeezed (n :: s)) /\ ash X' = Ok (squeezed (n :: s')) /\ forall q, (q < n * prod s)%nat -> flat X q = flat X' q.
Proof.
  intros HK [E E' W W' P V] H. assert (exists X', get_radial_velocity k o (kep_warp o) t' K u = Ok X') as [X' H'].
  { unfold get_radial_velocity in *. destruct K as [K|]; [destruct (true_anomaly o (kep_warp o) true t') as [? ?]; eexists; reflexivity|].
    destruct (uto _ _) as [c|]; [|discriminate H]. cbn [rbind] in *. destruct (get_star_velocity o (kep_warp o) t') as [[? ?] ?]. eexists. reflexivity. }
  exists X'. split; [exact H'|]. destruct (rv_list K u s t X HK E W H) as [S1 L1]. destruct (rv_list K u s' t' X' HK E' W' H') as [S2 L2]. split; [exact S1|]. split; [exact S2|].
  intros q Hq. rewrite L1 by exact Hq. rewrite L2 by (rewrite <- P; exact Hq). rewrite V; [reflexivity|]. apply Nat.div_lt_upper_bound; [destruct n; [cbn in Hq; lia|discriminate]|exact Hq].
Qed.
End K.

(** ** SimpleTransitOrbit *)
Lemma simple_any n x xs : simple_system n x xs ->
  any_shape3 n (fun t => match simple_relative_position (simple_init x) t false with Ok v => v | Err _ => (t, t, t) end).
Proof.
  intro sys. destruct (simple_sn n x xs sys) as (S1 & S2 & S3 & S4).
  set (V := fun t : tens => let dt := simple_dt (simple_init x) t in (s_speed (simple_init x) * dt, s_b_norm (simple_init x) + nzl dt, nsw (nlt (nabs dt) (nlit 0.5 * s_duration (simple_init x))) (nlit 1) (- nlit 1))%num).
  change (any_shape3 n (fun t => sqz3 (V t))). apply (any3_of n _ (sposF xs)).
  - intros s t Et _. assert (E := simple_dt_ens n x xs sys s t Et). unfold V. cbv zeta. set (dt := simple_dt (simple_init x) t) in *. cbn [fst snd].
    split; [apply ENS_map2r; assumption|]. split; [apply ENS_map2r; [assumption|apply ENS_map; assumption]|].
    assert (M : ENS n s (nlt (nabs dt) (nlit 0.5 * s_duration (simple_init x))%num)) by (apply ENS_map2l; [apply ENS_map; assumption|apply Sn_map2; [apply Sn_lit|assumption]]).
    unfold ENS in M. change (bcr (ash (nlt (nabs dt) (nlit 0.5 * s_duration (simple_init x))%num)) (bcr (Ok []) (Ok [])) = Ok (n :: s)).
    refine (eq_trans (f_equal (fun z => bcr z (bcr (Ok []) (Ok []))) M) _). change (match bc (n :: s) [] with Some c => Ok c | None => Err ShapeErr end = Ok (n :: s)). rewrite bc_nil. reflexivity.
  - intros s t i Et Hi. assert (A := sargs_at_any n x xs sys i Hi). unfold sposF. rewrite <- A. unfold V. destruct x as [? ? [?|] [?|] [?|] [?|]]; reflexivity.
Qed.

(** ** TTVOrbit *)
Section T.
Variables (k : consts) (n : nat) (o : ttvorbit) (os : nat -> orbit R) (tts : nat -> list R).
Hypothesis kok : consts_ok k.
Hypothesis sys : ttv_system k n o os tts.
Let P := ttv_parts k n o os tts kok sys.
Let So := proj1 P.
Let Eno := proj1 (proj2 P).
Let Oat := proj2 (proj2 (proj2 (proj2 P))).
Lemma w'_at i : (i O < n)%nat -> (forall u, aget (w' o true u) i = wj o os (i O) true (aget u (fun d => i (S d)))) /\ (forall u, aget (w' o false u) i = wj o os (i O) false (aget u i)).
Proof.
  intro Hi. split; intro u; [apply (warp_at1 k n o os tts sys i u Hi)|]. cbn [w' wj]. rewrite kep_warp_at0, (Oat i Hi). reflexivity.
Qed.
Lemma ttv_pos_any b : any_shape3 n (fun t => tpos k o b t None false).
Proof.
  assert (Q : forall (a : tens) (f : orbit fl -> fl), Sn n a -> (forall i, aget a i = f (orbit_at i (tt_orbit o))) -> any_shape3 n (fun t => sqz3 (position_nodelay k (tt_orbit o) (w' o) a t None true))).
  { intros a f Sa Ea. apply (any3_of n _ (fun j t => position_nodelay k (fin_orbit (os j)) (wj o os j) (f (fin_orbit (os j))) t None true)).
    - intros s t Et _. apply (pos_nd_shapeS n s k (tt_orbit o) So Eno (w' o) (w'_T1S k n o os tts sys s) (w'_ENS k n o os tts kok sys s) a t None true Sa I Et _ eq_refl).
    - intros s t i Et Hi. destruct (w'_at i Hi) as [W1 W0]. rewrite (pos_nd_at k i (tt_orbit o) (w' o) (wj o os (i O)) W1 W0), Ea, (Oat i Hi). reflexivity. }
  destruct b; unfold tpos, get_planet_position, get_star_position, get_relative_position, get_position.
  - apply (Q _ (fun o => o_a_planet o)); [apply (os_ap _ _ So)|reflexivity].
  - apply (Q _ (fun o => o_a_star o)); [apply (os_as _ _ So)|reflexivity].
  - apply (Q _ (fun o => (- o_a o)%num)); [apply (Sn_map n fneg), (os_a _ _ So)|reflexivity].
Qed.
Lemma ttv_vel_any b : any_shape3 n (fun t => tvel o b t).
Proof.
  assert (Q : forall (a : tens) (f : orbit fl -> fl), Sn n a -> (forall i, aget a i = f (orbit_at i (tt_orbit o))) -> any_shape3 n (fun t => sqz3 (get_velocity (tt_orbit o) (w' o) a t))).
  { intros a f Sa Ea. apply (any3_of n _ (fun j t => get_velocity (fin_orbit (os j)) (wj o os j) (f (fin_orbit (os j))) t)).
    - intros s t Et _. apply (vel_shapeS n s (tt_orbit o) So Eno (w' o) (w'_T1S k n o os tts sys s) (w'_ENS k n o os tts kok sys s) a t Sa Et _ eq_refl).
    - intros s t i Et Hi. destruct (w'_at i Hi) as [W1 W0]. rewrite (vel_at i (tt_orbit o) (w' o) (wj o os (i O)) W1 W0), Ea, (Oat i Hi). reflexivity. }
  destruct b; unfold tvel, get_planet_velocity, get_star_velocity, get_relative_velocity.
  - apply (Q _ (fun o => (- o_m_star o)%num)); [apply (Sn_map n fneg), (os_ms _ _ So)|reflexivity].
  - apply (Q _ (fun o => o_m_planet o)); [apply (os_mp _ _ So)|reflexivity].
  - apply (Q _ (fun o => (- o_m_total o)%num)); [apply (Sn_map n fneg), (os_mt _ _ So)|reflexivity].
Qed.
End T.
