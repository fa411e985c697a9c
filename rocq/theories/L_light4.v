(** * The orbits of the library answer light curves *)
From Coq Require Import Reals List Bool Arith ZArith Lra Lia Psatz Sorted.
From Verif Require Import Num CoreOps Inst CoreFlux M_units M_kepler M_fin M_tensor M_simple M_ttv M_limbdark Spec_orbit Spec_params Spec_array Spec_simple Spec_light
  L_real L_params3 L_fl L_fl2 L_fl3 L_fl4 L_tens L_shape L_shapeS L_transit3 L_transit4 L_array L_ptransit L_simple L_simple2 L_reshape L_light1 L_light2 L_light3.
Import ListNotations.
Local Notation length := List.length.
Open Scope R_scope.

Lemma answers_of (n : nat) (s : shape) (t : tens) ts (X Y Z : tens) (f : nat -> R -> R * R * R) :
  ash t = Ok s -> twf t -> (forall i, inside s i -> aget t i = Fin (ts i)) ->
  ash X = Ok (n :: s) -> ash Y = Ok (n :: s) -> ash Z = Ok (n :: s) ->
  (forall i tt, (i O < n)%nat -> aget t (fun k => i (S k)) = Fin tt -> (aget X i, aget Y i, aget Z i) = fin3 (f (i O) tt)) ->
  prod (squeezed (n :: s)) = prod (n :: s) /\
  lists n s ts (asqz X) (squeezed (n :: s)) (fun j t => vx (f j t)) /\
  lists n s ts (asqz Y) (squeezed (n :: s)) (fun j t => vy (f j t)) /\
  lists n s ts (asqz Z) (squeezed (n :: s)) (fun j t => vz (f j t)).
Proof.
  intros Et Wt Vt SX SY SZ V. split; [apply prod_squeezed|].
  assert (G : forall (W : tens) (pr : fl * fl * fl -> fl) (qr : R * R * R -> R), ash W = Ok (n :: s) ->
     (forall v, pr (fin3 v) = Fin (qr v)) -> (forall i, aget W i = pr (aget X i, aget Y i, aget Z i)) ->
     lists n s ts (asqz W) (squeezed (n :: s)) (fun j t => qr (f j t))).
  { intros W pr qr SW Hp HW. split; [unfold asqz; cbn [ash]; rewrite SW; reflexivity|]. intros i Hi.
    destruct (flat_squeezed W (n :: s) i SW Hi) as (i' & Ei & ->). destruct (inside_cons _ _ _ Hi) as [H0 H1].
    assert (E0 : i' O = i O) by (apply Ei; cbn; lia).
    rewrite HW, (V i' (ts (fun k => i (S k)))), E0; [apply Hp|lia|].
    rewrite (Wt _ Et _ (fun k => i (S k))); [apply Vt; exact H1|]. intros k Hk. apply Ei. cbn. destruct (le_lt_dec (length s) k) as [L|L]; [|lia].
    rewrite nth_overflow in Hk by exact L. contradiction. }
  split; [|split].
  - apply (G X (fun v => fst (fst v)) vx SX); [intros [[? ?] ?]; reflexivity|reflexivity].
  - apply (G Y (fun v => snd (fst v)) vy SY); [intros [[? ?] ?]; reflexivity|reflexivity].
  - apply (G Z (fun v => snd v) vz SZ); [intros [[? ?] ?]; reflexivity|reflexivity].
Qed.

Lemma system_fin_pos k n x xs os : consts_ok k -> system k n x xs os -> forall j t b, (j < n)%nat -> 
  pos k (fin_orbit (os j)) b (Fin t) None false = fin3 (pos k (os j) b t None false).
Proof.
  intros kok sys j t b Hj.
  destruct (machine_motion k (xs j) (os j) kok (sy_init _ _ _ _ _ sys j Hj) (sy_phys _ _ _ _ _ sys j Hj) (sy_dur _ _ _ _ _ sys j Hj)) as (fo & F1 & F2).
  assert (E : fo = fin_orbit (os j)).
  { assert (F3 := kep_init_fin k kok (xs j) (os j) (sy_init _ _ _ _ _ sys j Hj) (sy_phys _ _ _ _ _ sys j Hj) (sy_dur _ _ _ _ _ sys j Hj)). rewrite F3 in F1. apply Ok_inj in F1. symmetry. exact F1. }
  rewrite <- E. apply (proj1 (F2 t) b None).
Qed.

Lemma kepler_answers k n x xs os o cp : consts_ok k -> system k n x xs os -> kep_init k x = Ok o ->
  answers (kep_api k cp o) false n (fun j t => pos k (os j) Relative t None false) /\
  planet_numbers n (oa_r_star (kep_api k cp o)) (fun j => o_r_star (os j)).
Proof.
  intros kok sys Ho. destruct (system_orbit k n x xs os kok sys) as (o' & Ho' & So & Eno & Epo & Oat). rewrite Ho in Ho'. apply Ok_inj in Ho'. subst o'.
  split.
  - intros s t ts Et Wt Vt. cbn [oa_pos kep_api]. unfold get_relative_position.
    assert (Sa : Sn n (- o_a o)%num) by apply (Sn_map n fneg), (os_a _ _ So).
    assert (W1 : forall t0, ash t0 = Ok s -> T1S n s (kep_warp o true t0)).
    { intros t0 E. apply (T1S_map2l n s fsub); [apply padr_T1S; exact E|apply (os_t0 _ _ So)]. }
    assert (W0 : forall t0, ENS n s t0 -> ENS n s (kep_warp o false t0)).
    { intros t0 E. apply (ENS_map2l n s fsub); [exact E|apply (os_t0 _ _ So)]. }
    assert (Sh := pos_shapeS n s k o So Eno (kep_warp o) W1 W0 (- o_a o)%num t None false Sa I Et _ eq_refl).
    assert (Va := fun i => get_position_at k i o (kep_warp o) (kep_warp (orbit_at i o)) (kep_warp_at1 o i) (kep_warp_at0 o i) (- o_a o)%num t None false true).
    destruct (get_position k o (kep_warp o) (- o_a o)%num t None false true) as [[X Y] Z]. cbn [fst snd] in Sh. destruct Sh as (SX & SY & SZ).
    exists (asqz X), (asqz Y), (asqz Z), (squeezed (n :: s)). split; [reflexivity|].
    apply (answers_of n s t ts X Y Z (fun j t => pos k (os j) Relative t None false) Et Wt Vt SX SY SZ).
    intros i tt Hi Htt. specialize (Va i). rewrite (Oat i Hi) in Va. rewrite Htt in Va.
    assert (F := system_fin_pos k n x xs os kok sys (i O) tt Relative Hi). unfold pos, get_relative_position in F. rewrite sqz3_F in F.
    cbn [pos]. unfold get_relative_position. rewrite <- F. etransitivity; [exact Va|]. cbn [option_map].
    replace (aget (- o_a o)%num i) with (- o_a (fin_orbit (os (i O))))%num; [reflexivity|]. rewrite <- (Oat i Hi). reflexivity.
  - cbn [oa_r_star kep_api].
    split; [destruct (os_r _ _ So) as [[E _]|[E _]]; [left|right]; exact E|].
    intros i Hi. assert (E := Oat i Hi). apply (f_equal (fun o => o_r_star o)) in E. exact E.
Qed.

Section Simple.
Variables (n : nat) (x : sargs tens) (xs : nat -> sargs R).
Hypothesis sys : simple_system n x xs.
Hypothesis ok : forall j, (j < n)%nat -> simple_ok (xs j).
Ltac snl := repeat first [assumption | apply Sn_lit | apply Sn_map | apply Sn_map2 | apply dflt_sn ].
Lemma simple_dt_ens s t : ash t = Ok s -> ENS n s (simple_dt (simple_init x) t).
Proof.
  intro Et. destruct sys. unfold simple_dt, simple_init. cbn [s_period s_t0 s_b s_duration s_r_star s_b_norm s_speed s_half_period s_ref_time].
  assert (Sp : Sn n (sa_period x)) by (apply pp_sn; apply ss_period).
  assert (Ep : En n (sa_period x)).
  { split; [exact Sp|]. destruct ss_period as [_ [E|[E _]]]; auto. }
  apply ENS_map2l; [|snl]. apply T1S_En; [|exact Ep]. apply T1S_map2l; [apply padr_T1S; exact Et|]. snl.
Qed.
Lemma simple_answers : answers (simple_api (simple_init x)) false n (fun j t => spos (xs j) t) /\
  planet_numbers n (oa_r_star (simple_api (simple_init x))) (fun j => dflt 1 (sa_r_star (xs j))).
Proof.
  destruct (simple_sn n x xs sys) as (S1 & S2 & S3 & S4). split.
  - intros s t ts Et Wt Vt. cbn [oa_pos simple_api]. unfold simple_relative_position. assert (E := simple_dt_ens s t Et).
    set (dt := simple_dt (simple_init x) t) in *.
    eexists _, _, _, (squeezed (n :: s)). split; [reflexivity|]. apply (answers_of n s t ts); try assumption.
    + apply ENS_map2r; assumption.
    + apply ENS_map2r; [assumption|apply ENS_map; assumption].
    + assert (M : ENS n s (nlt (nabs dt) (nlit 0.5 * s_duration (simple_init x))%num)) by (apply ENS_map2l; [apply ENS_map; assumption|apply Sn_map2; [apply Sn_lit|assumption]]).
      unfold ENS in M. change (bcr (ash (nlt (nabs dt) (nlit 0.5 * s_duration (simple_init x))%num)) (bcr (Ok []) (Ok [])) = Ok (n :: s)).
      refine (eq_trans (f_equal (fun z => bcr z (bcr (Ok []) (Ok []))) M) _). change (match bc (n :: s) [] with Some c => Ok c | None => Err ShapeErr end = Ok (n :: s)). rewrite bc_nil. reflexivity.
    + intros i tt Hi Htt. assert (P := simple_pos_fin (xs (i O)) (ok _ Hi) tt). assert (A := sargs_at_any n x xs sys i Hi). rewrite <- A, <- Htt in P.
      unfold simple_relative_position in P. apply Ok_inj in P. rewrite <- P. clear P. unfold dt. destruct x as [? ? [?|] [?|] [?|] [?|]]; reflexivity.
  - cbn [oa_r_star simple_api]. split; [destruct S4 as [[E _]|[E _]]; [left|right]; exact E|].
    intros i Hi. assert (A := sargs_at_any n x xs sys i Hi). apply (f_equal sa_r_star) in A. unfold simple_init. cbn [s_r_star]. cbn in A.
    destruct (sa_r_star x), (sa_r_star (xs (i O))); try discriminate; [injection A as A; exact A|reflexivity].
Qed.
End Simple.
