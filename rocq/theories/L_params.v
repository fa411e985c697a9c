(** * Proofs of the constructor properties *)
From Coq Require Import Reals Lra Lia ZArith Bool List.
From Coquelicot Require Import Coquelicot.
From Verif Require Import Num CoreOps Inst M_units M_kepler L_real L_kepop Spec_orbit Spec_params L_orbit.
Open Scope R_scope.

(** ** C01, for every numeric type *)
Section Gen.
Context {T B : Type} {N : Num T B}.
Variable k : consts.

Lemma opt_to_unit_some (q : qty T) u : convertible (Some q) u -> exists v, opt_to_unit (Some q) u = Ok (Some v).
Proof. intros [v H]. exists v. unfold opt_to_unit. rewrite H. reflexivity. Qed.

Lemma rho_conv (q : qty T) : convertible (Some q) (u_gcc k) ->
  exists v, match qu q with
            | Some _ => rmap Some (to_unit q (u_rho_sun k))
            | None => Ok (Some (ndiv (qv q) (nlit (gcc_per_sun k))))
            end = Ok (Some v).
Proof.
  intros [v H]. destruct (qu q) eqn:E; [|eexists; reflexivity].
  unfold to_unit in *. rewrite E in *. unfold uto in *. cbn in *.
  destruct (dim_eqb (udim u) (1%Z, (-3)%Z, 0%Z)); [|discriminate]. cbn. eexists; reflexivity.
Qed.

Lemma ci_accept (a p rho r m mp : option (qty T)) :
  convertible a (u_R_sun k) -> convertible p (u_day k) -> convertible r (u_R_sun k) ->
  convertible m (u_M_sun k) -> convertible rho (u_gcc k) -> convertible mp (u_M_sun k) ->
  legal (given a) (given p) (given rho) (given r) (given m) = true ->
  exists out, consistent_inputs k a p rho r m mp = Ok out.
Proof.
  intros Ha Hp Hr Hm Hrho Hmp. unfold consistent_inputs.
  assert (Hmp' : exists v, opt_to_unit mp (u_M_sun k) = Ok v).
  { destruct mp as [q|]. destruct (opt_to_unit_some q _ Hmp) as [v Hv]; eauto. eexists; reflexivity. }
  destruct Hmp' as [mpv Hmpv]. rewrite Hmpv.
  destruct a as [a|], p as [p|]; cbn [given legal is_none andb]; intros HL; try discriminate HL.
  - destruct rho, m; try discriminate HL. cbn [is_none negb orb].
    destruct (opt_to_unit_some a _ Ha) as [va ->]. destruct (opt_to_unit_some p _ Hp) as [vp ->]. cbn [rbind].
    destruct r as [r|]; [destruct Hr as [vr ->]|]; cbn [rbind]; eexists; reflexivity.
  - destruct (opt_to_unit_some a _ Ha) as [va ->]. cbn [opt_to_unit rbind].
    destruct rho as [rho|], r as [r|], m as [m|]; try discriminate HL; cbn [is_none negb orb andb b2n Nat.add Nat.eqb];
      try (destruct (rho_conv rho Hrho) as [vv ->]); cbn [rbind];
      try (destruct (opt_to_unit_some r _ Hr) as [vr ->]); cbn [rbind];
      try (destruct (opt_to_unit_some m _ Hm) as [vm ->]); cbn [rbind opt_to_unit to_unit plain qu qv rmap]; eexists; reflexivity.
  - destruct (opt_to_unit_some p _ Hp) as [vp ->]. cbn [opt_to_unit rbind].
    destruct rho as [rho|], r as [r|], m as [m|]; try discriminate HL; cbn [is_none negb orb andb b2n Nat.add Nat.eqb];
      try (destruct (rho_conv rho Hrho) as [vv ->]); cbn [rbind];
      try (destruct (opt_to_unit_some r _ Hr) as [vr ->]); cbn [rbind];
      try (destruct (opt_to_unit_some m _ Hm) as [vm ->]); cbn [rbind opt_to_unit to_unit plain qu qv rmap]; eexists; reflexivity.
Qed.

Lemma ci_reject (a p rho r m mp : option (qty T)) :
  convertible a (u_R_sun k) -> convertible p (u_day k) -> convertible mp (u_M_sun k) ->
  legal (given a) (given p) (given rho) (given r) (given m) = false ->
  consistent_inputs k a p rho r m mp = Err ValueError.
Proof.
  intros Ha Hp Hmp. unfold consistent_inputs.
  assert (Hmp' : exists v, opt_to_unit mp (u_M_sun k) = Ok v).
  { destruct mp as [q|]. destruct (opt_to_unit_some q _ Hmp) as [v Hv]; eauto. eexists; reflexivity. }
  destruct Hmp' as [mpv Hmpv]. rewrite Hmpv.
  destruct a as [a|], p as [p|]; cbn [given legal is_none andb]; intros HL; auto.
  - destruct (opt_to_unit_some a _ Ha) as [va ->]. destruct (opt_to_unit_some p _ Hp) as [vp ->]. cbn [rbind].
    destruct rho, m; try discriminate HL; reflexivity.
  - destruct (opt_to_unit_some a _ Ha) as [va ->]. cbn [opt_to_unit rbind].
    destruct rho as [rho|], r as [r|], m as [m|]; try discriminate HL; reflexivity.
  - destruct (opt_to_unit_some p _ Hp) as [vp ->]. cbn [opt_to_unit rbind].
    destruct rho as [rho|], r as [r|], m as [m|]; try discriminate HL; reflexivity.
Qed.

(** C04, error part: a wrong unit in a legal combination *)
Lemma ci_unit_error (a p rho r m mp : option (qty T)) :
  legal (given a) (given p) (given rho) (given r) (given m) = true ->
  ~ (convertible a (u_R_sun k) /\ convertible p (u_day k) /\ convertible r (u_R_sun k) /\
     convertible m (u_M_sun k) /\ convertible rho (u_gcc k) /\ convertible mp (u_M_sun k)) ->
  consistent_inputs k a p rho r m mp = Err UnitErr.
Proof.
  assert (C : forall (q : qty T) u, (exists v, to_unit q u = Ok v) \/ to_unit q u = Err UnitErr).
  { intros q u. unfold to_unit, uto. destruct (qu q); [|left; eexists; reflexivity].
    destruct (dim_eqb _ _); [left; eexists; reflexivity|right; reflexivity]. }
  assert (CR : forall q : qty T, (exists v, to_unit q (u_gcc k) = Ok v) \/
     (match qu q with
            | Some _ => rmap Some (to_unit q (u_rho_sun k))
            | None => Ok (Some (ndiv (qv q) (nlit (gcc_per_sun k))))
            end = Err UnitErr)).
  { intros q. unfold to_unit, uto. destruct (qu q); [|left; eexists; reflexivity]. cbn.
    destruct (dim_eqb _ _); [left; eexists; reflexivity|right; reflexivity]. }
  intros HL HN. unfold consistent_inputs.
  destruct a as [a|], p as [p|]; cbn [given legal is_none andb] in *; try discriminate HL.
  all: destruct mp as [mp|]; cbn [opt_to_unit];
    [destruct (C mp (u_M_sun k)) as [Hmp| ->]; [pose proof Hmp as [vmp ->]|reflexivity]|]; cbn [rmap rbind];
    try (destruct (C a (u_R_sun k)) as [Ha| ->]; [pose proof Ha as [va ->]|reflexivity]; cbn [rmap rbind]);
    try (destruct (C p (u_day k)) as [Hp| ->]; [pose proof Hp as [vp ->]|reflexivity]; cbn [rmap rbind]);
    destruct rho as [rho|], r as [r|], m as [m|]; try discriminate HL; cbn [is_none negb orb andb b2n Nat.add Nat.eqb];
    try (destruct (CR rho) as [Hrho| ->]; [destruct (rho_conv rho Hrho) as [vv ->]|reflexivity]); cbn [rbind];
    try (cbn [opt_to_unit rmap rbind]; destruct (C r (u_R_sun k)) as [Hr| ->]; [pose proof Hr as [vr ->]|reflexivity]; cbn [rmap rbind]);
    try (cbn [opt_to_unit rmap rbind]; destruct (C m (u_M_sun k)) as [Hm| ->]; [pose proof Hm as [vm ->]|reflexivity]; cbn [rmap rbind]);
    exfalso; apply HN; repeat split; cbn; auto.
Qed.

Lemma others_init (x : kargs T) : others_ok x ->
  match consistent_inputs k (ka_a x) (ka_period x) (ka_rho_star x) (ka_r_star x) (ka_m_star x) (ka_m_planet x) with
  | Ok _ => exists o, kep_init k x = Ok o
  | Err e => kep_init k x = Err e
  end.
Proof.
  intros [Hd Hw Ht Hb Hu1 Hu2]. unfold kep_init, kep_units, kep_duration. rewrite Hu1, Hu2, Hd. cbn [rbind].
  assert (E : match ka_ecc x with
    | Some _ => Ok (ka_a x, ka_r_star x, None, @None T)
    | None => Ok (ka_a x, ka_r_star x, None, None) end = Ok (ka_a x, ka_r_star x, @None (qty T), @None T))
    by (destruct (ka_ecc x); reflexivity).
  rewrite E. cbn [rbind].
  destruct (consistent_inputs _ _ _ _ _ _ _) as [[[[[[A P] RHO] RS] MS] MP]|e]; [|reflexivity]. cbn [rbind].
  assert (Ew : exists ed, kep_omega x = Ok ed).
  { unfold kep_omega. destruct (ka_ecc x); [|eauto].
    destruct Hw as [Hw|Hw]; [discriminate|].
    destruct (ka_omega x), (ka_sin_omega x), (ka_cos_omega x); cbn in *;
      destruct Hw as [[? ?]|[? ?]]; try discriminate; eauto. }
  destruct Ew as [ed ->]. cbn [rbind].
  unfold kep_incl, kep_times.
  destruct (ka_b x), (ka_incl x); try discriminate Hb; cbn [is_none negb orb rbind];
  destruct (ka_t0 x), (ka_tper x); try discriminate Ht; cbn [rbind]; eexists; reflexivity.
Qed.

Lemma kep_init_accept (x : kargs T) : others_ok x -> units_ok k x -> legal_args x = true ->
  exists o, kep_init k x = Ok o.
Proof.
  intros Ho [] HL. assert (H := others_init x Ho).
  destruct (ci_accept (ka_a x) (ka_period x) (ka_rho_star x) (ka_r_star x) (ka_m_star x) (ka_m_planet x)) as [out E]; auto.
  rewrite E in H. exact H.
Qed.
Lemma kep_init_reject (x : kargs T) : others_ok x -> units_ok k x -> legal_args x = false ->
  kep_init k x = Err ValueError.
Proof.
  intros Ho [] HL. assert (H := others_init x Ho).
  rewrite ci_reject in H; auto.
Qed.
Lemma kep_init_unit_error (x : kargs T) : others_ok x -> legal_args x = true -> ~ units_ok k x ->
  kep_init k x = Err UnitErr.
Proof.
  intros Ho HL HU. assert (H := others_init x Ho).
  rewrite ci_unit_error in H; auto. intros (h1 & h2 & h3 & h4 & h5 & h6). apply HU. constructor; auto.
Qed.

(** C74, second part *)
Lemma a_overridden (x : kargs T) d a : ka_ecc x = None -> ka_duration x = Some d ->
  kep_init k (set_a x a) = kep_init k x.
Proof.
  intros He Hd. unfold kep_init, kep_units, kep_duration, kep_omega, kep_incl, kep_times. cbn [set_a ka_period ka_a ka_t0 ka_tper ka_incl ka_b ka_duration ka_ecc ka_omega
  ka_sin_omega ka_cos_omega ka_Omega ka_m_planet ka_m_star ka_r_star ka_rho_star ka_ror
  ka_m_planet_units ka_rho_star_units]. rewrite He, Hd. reflexivity.
Qed.
End Gen.
