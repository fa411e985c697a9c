(** * TTVOrbit: examples and deviations *)
From Coq Require Import Reals List Bool Arith ZArith Lra Lia Psatz Sorted String.
From Verif Require Import Num CoreOps Inst M_units M_kepler M_kwargs M_fin M_tensor M_ttv Spec_orbit Spec_params Spec_array Spec_ttv
  L_real L_fl L_fl2 L_kwargs L_params3 L_pmotion5 L_shape L_array L_ptransit L_ttv1 L_ttv2 L_ttv3 L_ttv4 L_ttv5 Ex_orbit Ex_system L_transit6.
Import ListNotations.
Open Scope R_scope.
Local Notation length := List.length.

Lemma ttv_delta_ignored k ttvs times inds l l' v : (ttvs <> None \/ lookup "period" (l ++ l') <> None) ->
  ttv_init k (targs_of ttvs times inds (l ++ ("delta_log_period"%string, v) :: l')) = ttv_init k (targs_of ttvs times inds (l ++ l')).
Proof.
  intro H. assert (Nk : ~ In "delta_log_period"%string kepler_keywords).
  { cbn. intro K. repeat (destruct K as [K|K]; [discriminate K|]). exact K. }
  unfold ttv_init. cbn [ta_ttvs ta_times ta_inds ta_kw targs_of]. destruct ttvs as [ttvs|].
  - rewrite (kwargs_ignored k _ v l l' Nk). reflexivity.
  - destruct H as [H|H]; [congruence|]. destruct times as [times|]; [|reflexivity].
    destruct (imap _ times) as [fits|]; [|reflexivity]. cbn [rbind]. destruct (tstack _) as [t0|]; [|reflexivity]. cbn [rbind].
    destruct (tstack _) as [P|]; [|reflexivity]. cbn [rbind]. unfold ttv_kwargs. cbn [lookup]. change (String.eqb "period" "t0") with false. cbv iota.
    rewrite lookup_skip by discriminate. destruct (lookup "period" (l ++ l')); [|congruence]. cbn [rbind].
    rewrite (kwargs_ignored k _ v (("t0"%string, KNum (plain t0)) :: l) l' Nk). reflexivity.
Qed.

(** ** A two-planet TTVOrbit *)
Definition ex_kw (n : nat) (bs : nat -> R) : list (string * kval tens) :=
  [("b", KNum (plain (vector n bs))); ("m_planet", KNum (plain (scalar (1 / 2))))]%string.
Definition ex_tkw (n : nat) (bs : nat -> R) : list (string * kval tens) :=
  (("period", KNum (plain (vector n (fun _ => 10)))) :: ("t0", KNum (plain (vector n (fun _ => 2)))) :: ex_kw n bs)%string.
(** the keyword arguments as bound by KeplerianOrbit *)
Definition ex_targs (n : nat) (bs : nat -> R) : kargs tens :=
  {| ka_period := Some (plain (vector n (fun _ => 10))); ka_a := None; ka_t0 := Some (vector n (fun _ => 2)); ka_tper := None;
     ka_incl := None; ka_b := Some (vector n bs); ka_duration := None; ka_ecc := None;
     ka_omega := None; ka_sin_omega := None; ka_cos_omega := None; ka_Omega := None;
     ka_m_planet := Some (plain (scalar (1 / 2))); ka_m_star := None; ka_r_star := None;
     ka_rho_star := None; ka_ror := None; ka_m_planet_units := None; ka_rho_star_units := None |}.
Lemma ex_tsystem : exists os, system ek 2 (ex_targs 2 ex_bs) (fun j => ex_b_args (ex_bs j)) os /\
  forall j, (j < 2)%nat -> o_period (os j) = 10 /\ o_t0 (os j) = 2 /\ o_ecc (os j) = None /\ o_b (os j) = ex_bs j /\ o_r_star (os j) = 1 /\ 2 < o_a (os j) /\ 0 <= o_sin_incl (os j).
Proof.
  destruct (ex_b 0 ltac:(lra)) as (o0 & A1 & A2 & A3 & A4 & A5). destruct (ex_b 2 ltac:(lra)) as (o1 & B1 & B2 & B3 & B4 & B5).
  exists (fun j => match j with O => o0 | _ => o1 end). split.
  - constructor.
    + lia.
    + constructor; cbn; try exact I; try reflexivity; first [apply vector_pp|apply scalar_pp|left; reflexivity].
    + intros [|[|j]] Hj; [| |lia]; reflexivity.
    + intros [|[|j]] Hj; [| |lia]; assumption.
    + intros [|[|j]] Hj; [| |lia]; assumption.
    + intros j Hj; left; reflexivity.
  - intros [|[|j]] Hj; [| |lia]; tauto.
Qed.

(** transits 0, 1 and 3 of the first planet and 0 and 2 of the second *)
Definition ex_inds : list (list Z) := [[0; 1; 3]; [0; 2]]%Z.
Definition ex_ttvs : list (list fl) := [[Fin 0; Fin (1 / 2); Fin 0]; [Fin 1; Fin 0]].
Definition ex_tts (j : nat) : list R := match j with O => [2; 25 / 2; 22; 32] | _ => [3; 12; 22] end.
Definition ex_x : targs := targs_of (Some ex_ttvs) None (Some ex_inds) (ex_tkw 2 ex_bs).
Definition ex_zeros : list (list fl) := [[Fin 0; Fin 0; Fin 0]; [Fin 0; Fin 0]].
Definition ex_tts0 (j : nat) : list R := match j with O => [2; 12; 22; 32] | _ => [2; 12; 22] end.
Definition ex_x0 : targs := targs_of (Some ex_zeros) None (Some ex_inds) (ex_tkw 2 ex_bs).

Ltac ssort := repeat (constructor; [|repeat (constructor; [lra|]); constructor]); constructor.
Lemma ex_sys_gen x ttvs tts : x = targs_of (Some ttvs) None (Some ex_inds) (ex_tkw 2 ex_bs) ->
  (exists o, ttv_init ek x = Ok o /\ kep_call ek (ex_tkw 2 ex_bs) = Ok (tt_orbit o) /\ tt_period o = vector 2 (fun _ => 10) /\
     tt_all o = map (fun j => map Fin (tts j)) (seq 0 2)) ->
  (forall j, (j < 2)%nat -> StronglySorted Rlt (tts j)) ->
  exists o os, consts_ok ek /\ ttv_init ek x = Ok o /\ ttv_system ek 2 o os tts /\ is_vector 3 (vector 3 INR) /\
   (forall m, (m < 3)%nat -> aget (vector 3 INR) (at_time m) = Fin (INR m)).
Proof.
  intros -> (o & H & K & P & A) S. destruct ex_tsystem as (os & Hos & _). exists o, os.
  assert (Q : kep_call ek (ex_tkw 2 ex_bs) = kep_init ek (ex_targs 2 ex_bs)) by reflexivity. rewrite Q in K.
  split; [apply ek_ok|]. split; [exact H|]. split.
  - constructor.
    + eexists; exact H.
    + exists (ex_targs 2 ex_bs), (fun j => ex_b_args (ex_bs j)). auto.
    + exact A.
    + exact S.
    + exists (fun _ => 10). split; [|intros; lra]. rewrite P. apply vector_values.
  - split; [apply vector_is|apply vector_at].
Qed.
Lemma ex_ttv : exists o os, consts_ok ek /\ ttv_init ek ex_x = Ok o /\ ttv_system ek 2 o os ex_tts /\ is_vector 3 (vector 3 INR) /\
   (forall m, (m < 3)%nat -> aget (vector 3 INR) (at_time m) = Fin (INR m)).
Proof.
  apply (ex_sys_gen ex_x ex_ttvs ex_tts eq_refl).
  - destruct (kep_call ek (ex_tkw 2 ex_bs)) as [ob|] eqn:K; [|discriminate K].
    assert (E1 : o_t0 ob = vector 2 (fun _ => 2)) by (apply (call_t0 ek _ _ _ K); reflexivity).
    assert (E2 : o_period ob = vector 2 (fun _ => 10)) by (apply (call_period ek _ _ _ K); reflexivity). clear - E1 E2 K.
    unfold ttv_init. cbn [ta_ttvs ta_inds ta_times ta_kw targs_of ex_x ex_x0]. rewrite K. clear K. cbn [rbind]. unfold ttv_finish. rewrite E1, E2.
    eexists. split; [reflexivity|]. split; [reflexivity|]. split; [reflexivity|]. cbn. unfold Pos.to_nat. cbn. repeat match goal with |- _ :: _ = _ :: _ => apply f_equal2 | |- Fin _ = Fin _ => apply f_equal end; try reflexivity; lra.
  - intros [|[|j]] Hj; [| |lia]; cbn; ssort.
Qed.
Lemma ex_ttv0 : exists o os, consts_ok ek /\ ttv_init ek ex_x0 = Ok o /\ ttv_system ek 2 o os ex_tts0 /\ is_vector 3 (vector 3 INR) /\
   (forall m, (m < 3)%nat -> aget (vector 3 INR) (at_time m) = Fin (INR m)).
Proof.
  apply (ex_sys_gen ex_x0 ex_zeros ex_tts0 eq_refl).
  - destruct (kep_call ek (ex_tkw 2 ex_bs)) as [ob|] eqn:K; [|discriminate K].
    assert (E1 : o_t0 ob = vector 2 (fun _ => 2)) by (apply (call_t0 ek _ _ _ K); reflexivity).
    assert (E2 : o_period ob = vector 2 (fun _ => 10)) by (apply (call_period ek _ _ _ K); reflexivity). clear - E1 E2 K.
    unfold ttv_init. cbn [ta_ttvs ta_inds ta_times ta_kw targs_of ex_x ex_x0]. rewrite K. clear K. cbn [rbind]. unfold ttv_finish. rewrite E1, E2.
    eexists. split; [reflexivity|]. split; [reflexivity|]. split; [reflexivity|]. cbn. unfold Pos.to_nat. cbn. repeat match goal with |- _ :: _ = _ :: _ => apply f_equal2 | |- Fin _ = Fin _ => apply f_equal end; try reflexivity; lra.
  - intros [|[|j]] Hj; [| |lia]; cbn; ssort.
Qed.

(** ** transit_times given *)
Definition ex_times : list (list fl) := [[Fin 2; Fin (25 / 2); Fin 32]; [Fin 3; Fin 22]].
Definition ex_xt : targs := targs_of None (Some ex_times) (Some ex_inds) (ex_kw 2 ex_bs).
Lemma ex_fit : exists o, ttv_init ek ex_xt = Ok o /\ tt_inds o = ex_inds /\ 
  lookup "period" (ta_kw ex_xt) = None /\ lookup "delta_log_period" (ta_kw ex_xt) = None /\
  (forall i inds tt, nth_error (tt_inds o) i = Some inds -> nth_error ex_times i = Some tt ->
     length inds = length tt /\ (exists p q, In p inds /\ In q inds /\ p <> q) /\ exists ys, tt = map Fin ys).
Proof.
  destruct (ttv_init ek ex_xt) as [o|] eqn:E; [|discriminate E]. exists o. split; [reflexivity|].
  destruct (times_init _ _ _ _ E eq_refl eq_refl) as (_ & _ & L & _ & Q). clear E.
  destruct (Q 0%nat _ eq_refl) as (i0 & _ & _ & _ & A0 & A1 & _). destruct (Q 1%nat _ eq_refl) as (i1 & _ & _ & _ & B0 & B1 & _). clear Q.
  injection A0 as <-. injection B0 as <-.
  assert (EI : tt_inds o = ex_inds). { destruct (tt_inds o) as [|a [|b [|]]]; cbn in L, A1, B1; try discriminate. injection A1 as ->. injection B1 as ->. reflexivity. }
  rewrite EI. clear. split; [reflexivity|]. split; [reflexivity|]. split; [reflexivity|].
  intros [|[|i]] inds tt H1 H2; cbn in H1, H2.
  - injection H1 as <-. injection H2 as <-. split; [reflexivity|]. split; [exists 0%Z, 1%Z; cbn; split; [auto|]; split; [auto|discriminate]|].
    exists [2; 25 / 2; 32]. reflexivity.
  - injection H1 as <-. injection H2 as <-. split; [reflexivity|]. split; [exists 0%Z, 2%Z; cbn; split; [auto|]; split; [auto|discriminate]|].
    exists [3; 22]. reflexivity.
  - destruct i; discriminate H1.
Qed.
Definition ex_xs : targs := targs_of None (Some [[Fin 2]]) None (ex_kw 1 ex_bs).
Lemma ex_single : exists o, ttv_init ek ex_xs = Ok o /\ nth_error (tt_inds o) 0 = Some [0%Z].
Proof.
  destruct (ttv_init ek ex_xs) as [o|] eqn:E; [|discriminate E]. exists o. split; [reflexivity|].
  destruct (times_init _ _ _ _ E eq_refl eq_refl) as (_ & _ & _ & _ & Q). destruct (Q 0%nat _ eq_refl) as (i0 & _ & _ & _ & A0 & A1 & _).
  injection A0 as <-. exact A1.
Qed.
Definition ex_xd : targs := targs_of None (Some [[Fin 0; Fin 3; Fin 6]]) None
  (("delta_log_period"%string, KNum (plain (vector 1 (fun _ => 1 / 10)))) :: ex_kw 1 ex_bs).
Lemma fit3 : ttv_fit [0; 1; 2]%Z (map Fin [0; 3; 6]) = Ok (Fin 3, Fin 0, map Fin [0; 0; 0]).
Proof.
  rewrite fit_fin; [|reflexivity|exists 0%Z, 1%Z; cbn; split; [auto|]; split; [auto|discriminate]].
  assert (Eb : fit_b [0; 1; 2]%Z [0; 3; 6] = 3) by (unfold fit_b; cbn; field). assert (Ea : fit_a [0; 1; 2]%Z [0; 3; 6] = 0) by (unfold fit_a; cbn; field).
  rewrite Eb, Ea. f_equal. f_equal. cbn. repeat f_equal; lra.
Qed.
Lemma one_planet_fit k x o l : ttv_init k x = Ok o -> ta_ttvs x = None -> ta_times x = Some [l] -> forall inds s c r,
  given_labels x 0 l = Some inds -> ttv_fit inds l = Ok (s, c, r) -> entry (tt_period o) 0 = s /\ entry (o_t0 (tt_orbit o)) 0 = c /\ tt_inds o = [inds] /\ tt_ttvs o = [r].
Proof.
  intros H H1 H2 inds s c r G F. destruct (times_init k x o [l] H H1 H2) as (_ & L2 & L3 & _ & Q).
  destruct (Q 0%nat l eq_refl) as (inds' & s' & c' & r' & G1 & G2 & G3 & G4 & G5 & _ & G7 & _). rewrite G in G1. injection G1 as <-.
  rewrite F in G4. apply Ok_inj in G4. injection G4 as <- <- <-. split; [exact G5|]. split; [exact G7|].
  split.
  - destruct (tt_inds o) as [|z [|]]; cbn in *; try discriminate; congruence.
  - destruct (tt_ttvs o) as [|z [|]]; cbn in *; try discriminate; congruence.
Qed.
Lemma ex_delta : exists o, ttv_init ek ex_xd = Ok o /\ entry (tt_period o) 0 = Fin 3.
Proof.
  destruct (ttv_init ek ex_xd) as [o|] eqn:E; [|discriminate E]. exists o. split; [reflexivity|].
  apply (one_planet_fit _ _ _ _ E eq_refl eq_refl _ _ _ _ eq_refl fit3).
Qed.

(** ** Deviation in C34 *)
Definition ex_xp : targs := targs_of None (Some [[Fin 0; Fin 3]]) (Some [[0; 3]%Z])
  (("period"%string, KNum (plain (vector 1 (fun _ => 2)))) :: ex_kw 1 ex_bs).
Lemma fit2 : ttv_fit [0; 3]%Z (map Fin [0; 3]) = Ok (Fin 1, Fin 0, map Fin [0; 0]).
Proof.
  rewrite fit_fin; [|reflexivity|exists 0%Z, 3%Z; cbn; split; [auto|]; split; [auto|discriminate]].
  assert (Eb : fit_b [0; 3]%Z [0; 3] = 1) by (unfold fit_b; cbn; field). assert (Ea : fit_a [0; 3]%Z [0; 3] = 0) by (unfold fit_a; cbn; field).
  rewrite Eb, Ea. f_equal. f_equal. cbn. repeat f_equal; lra.
Qed.
Lemma explicit_period : exists k x o, consts_ok k /\ ttv_init k x = Ok o /\
  tt_inds o = [[0; 3]%Z] /\ tt_times o = [[Fin 0; Fin 3]] /\ entry (o_t0 (tt_orbit o)) 0 = Fin 0 /\ entry (tt_period o) 0 = Fin 1 /\
  tt_all o = [[Fin 0; Fin 2; Fin 4; Fin 3]].
Proof.
  exists ek, ex_xp. destruct (ttv_init ek ex_xp) as [o|] eqn:E; [|discriminate E]. exists o.
  destruct (one_planet_fit _ _ _ _ E eq_refl eq_refl _ _ _ _ eq_refl fit2) as (A & B & C & _).
  destruct (times_init _ _ _ _ E eq_refl eq_refl) as (T1 & _ & _ & (kw & Ek & Ec) & _).
  assert (EP : o_period (tt_orbit o) = vector 1 (fun _ => 2)).
  { apply (call_period ek kw _ _ Ec). unfold ttv_kwargs in Ek. apply Ok_inj in Ek. subst kw. reflexivity. }
  destruct (ttv_init_finish _ _ _ E) as (F & _). destruct (finish_ok _ _ _ _ _ _ F) as (_ & _ & _ & _ & _ & L & _ & Q).
  split; [apply ek_ok|]. split; [reflexivity|]. split; [exact C|]. split; [exact T1|]. split; [exact B|]. split; [exact A|].
  destruct (times_init _ _ _ _ E eq_refl eq_refl) as (_ & _ & _ & _ & G). destruct (G 0%nat _ eq_refl) as (i0 & s & c & r & _ & _ & _ & _ & _ & _ & G7 & G8).
  rewrite C in *. destruct (Q 0%nat _ eq_refl) as (t0 & p & tt & all & bin & Q1 & Q2 & Q3 & Q4 & Q5 & _).
  rewrite G8 in Q1. apply Ok_inj in Q1. subst t0. rewrite <- G7, B in *. rewrite EP in Q2. apply Ok_inj in Q2. rewrite T1 in Q3. injection Q3 as <-.
  assert (Ea : all = [Fin 0; Fin 2; Fin 4; Fin 3]).
  { rewrite <- Q2 in Q4. cbn in Q4. unfold ttv_all in Q4. cbn in Q4. unfold Pos.to_nat in Q4. cbn in Q4. apply Ok_inj in Q4. rewrite <- Q4.
    unfold Pos.to_nat. cbn. repeat match goal with |- _ :: _ = _ :: _ => apply f_equal2 | |- Fin _ = Fin _ => apply f_equal end; try reflexivity; lra. }
  rewrite <- Ea. destruct (tt_all o) as [|y [|]]; cbn in *; try discriminate; congruence.
Qed.

(** ** Deviations in C35 *)
Lemma expected_end : exists mn mx P t0 q, 0 < P /\ mn <= t0 + IZR q * P <= mx /\
  compute_expected_transit_times mn mx [P] [t0] = [[]].
Proof.
  exists 1, 2, 2, 0, 1%Z. split; [lra|]. split; [lra|].
  destruct (expected_all 1 2 [2] [0]) as (L & Q). destruct (Q 0%nat 2 0 eq_refl eq_refl ltac:(lra)) as (l & E & _ & H).
  destruct (compute_expected_transit_times 1 2 [2] [0]) as [|y [|]]; cbn in *; try discriminate. injection E as ->.
  destruct l as [|t l]; [reflexivity|]. exfalso. destruct (proj1 (H t) (or_introl eq_refl)) as (q & -> & H1).
  assert (0 < IZR q < 1) by lra. destruct H0 as [A B]. apply lt_IZR in A, B. lia.
Qed.
Lemma expected_zip : forall mn mx P t0 t1, length (compute_expected_transit_times mn mx [P] [t0; t1]) = 1%nat.
Proof. reflexivity. Qed.
