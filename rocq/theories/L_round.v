(** * Which selections of attributes give the orbit back (C03) *)
From Coq Require Import Reals Lra Lia ZArith Bool List.
From Verif Require Import Num CoreOps Inst M_units M_kepler L_real L_kepop Spec_orbit Spec_params Spec_round L_orbit L_params L_params2 L_params3 Ex_orbit.
Open Scope R_scope.

Section S.
Variable k : consts.
Hypothesis kok : consts_ok k.
Lemma ci_selection (o : orbit R) (ua up urho ur um : bool) :
  0 < o_a o -> 0 < o_period o -> 0 < o_r_star o -> 0 < o_m_star o -> 0 <= o_m_planet o ->
  G_grav k * (o_m_star o + o_m_planet o) * (o_period o * o_period o) = 4 * (PI * PI) * (o_a o * o_a o * o_a o) ->
  o_rho_star o * (4 * PI * (o_r_star o * o_r_star o * o_r_star o)) = 3 * o_m_star o * gcc_per_sun k ->
  consistent_inputs k (sel ua (o_a o)) (sel up (o_period o)) (sel urho (o_rho_star o)) (sel ur (o_r_star o))
    (sel um (o_m_star o)) (Some (plain (o_m_planet o)))
  = Ok (o_a o, o_period o, o_rho_star o, o_r_star o, o_m_star o, o_m_planet o) <->
  legal ua up urho ur um = true /\ defaults_agree o ua up urho ur um.
Proof.
  intros Ha HP HR HM HMP K3 RH.
  assert (S1 : pins ua up urho ur um = true \/ legal ua up urho ur um = false \/ 
    (ur = false /\ um = false /\ (ua && up = true /\ urho = false \/ ua && up = false /\ legal ua up urho ur um = true))).
  { destruct ua, up, urho, ur, um; cbn; auto 10. }
  destruct S1 as [S1|[S1|S1]].
  - split; intro H.
    + unfold defaults_agree. destruct ua, up, urho, ur, um; try discriminate S1; split; try reflexivity; split; intros; try discriminate; intuition discriminate.
    + apply ci_round; assumption.
  - split; intro H; [|destruct H as [H _]; congruence]. exfalso. revert H. unfold consistent_inputs.
    destruct ua, up, urho, ur, um; try discriminate S1; cbn; discriminate.
  - destruct S1 as (-> & -> & S1).
    (* the same selection with the radius *)
    assert (Q : forall u1 u2, pins ua up urho u1 u2 = true -> consistent_inputs k (sel ua (o_a o)) (sel up (o_period o)) (sel urho (o_rho_star o)) (sel u1 (o_r_star o)) (sel u2 (o_m_star o)) (Some (plain (o_m_planet o)))
      = Ok (o_a o, o_period o, o_rho_star o, o_r_star o, o_m_star o, o_m_planet o)) by (intros u1 u2 Hu; apply ci_round; assumption).
    unfold defaults_agree. destruct S1 as [[S1 ->]|[S1 L]].
    + apply andb_prop in S1. destruct S1 as [-> ->]. specialize (Q true false eq_refl). split.
      * intro H. split; [reflexivity|]. split; [|discriminate]. intros _.
        unfold consistent_inputs in H. cbn [sel is_none negb andb orb opt_to_unit to_unit plain qu qv rmap rbind] in H. apply Ok_inj in H. injection H. intros. symmetry. assumption.
      * intros (_ & H & _). specialize (H (conj eq_refl eq_refl)). rewrite <- Q. unfold consistent_inputs. cbn [sel is_none negb andb orb opt_to_unit to_unit plain qu qv rmap rbind]. rewrite H. reflexivity.
    + destruct urho.
      * (* density alone *) assert (P2 : pins ua up true true false = true) by (destruct ua, up; cbn in *; congruence). specialize (Q true false P2). split.
        { intro H. split; [exact L|]. split; [|intros _ (X & _); discriminate X]. intros _.
          destruct ua, up; try discriminate S1; try discriminate L; unfold consistent_inputs in H;
          cbn [sel is_none negb andb orb opt_to_unit to_unit plain qu qv rmap rbind b2n Nat.add Nat.eqb] in H; apply Ok_inj in H; injection H; intros; symmetry; assumption. }
        { intros (_ & H & _). specialize (H (conj eq_refl eq_refl)). rewrite <- Q.
          destruct ua, up; try discriminate S1; try discriminate L; unfold consistent_inputs;
          cbn [sel is_none negb andb orb opt_to_unit to_unit plain qu qv rmap rbind b2n Nat.add Nat.eqb]; rewrite H; reflexivity. }
      * (* the Sun *) assert (P2 : pins ua up false true true = true) by (destruct ua, up; cbn in *; congruence). specialize (Q true true P2). split.
        { intro H. split; [exact L|].
          assert (E : o_r_star o = 1 /\ o_m_star o = 1). 
          { destruct ua, up; try discriminate S1; try discriminate L; unfold consistent_inputs in H;
            cbn [sel is_none negb andb orb opt_to_unit to_unit plain qu qv rmap rbind b2n Nat.add Nat.eqb] in H; apply Ok_inj in H; injection H; intros; split; symmetry; assumption. }
          split; intros; apply E. }
        { intros (_ & H & H'). specialize (H (conj eq_refl eq_refl)). specialize (H' S1 (conj eq_refl (conj eq_refl eq_refl))). rewrite <- Q.
          destruct ua, up; try discriminate S1; try discriminate L; unfold consistent_inputs;
          cbn [sel is_none negb andb orb opt_to_unit to_unit plain qu qv rmap rbind b2n Nat.add Nat.eqb]; rewrite H, H'; reflexivity. }
Qed.
Lemma selection x o (ua up urho ur um : bool) :
  kep_init k x = Ok o -> no_unit_kw x -> no_duration_a x -> positive_args k x -> 0 < o_m_star o ->
  (kep_init k (reargs x o ua up urho ur um) = Ok o <-> legal ua up urho ur um = true /\ defaults_agree o ua up urho ur um).
Proof.
  intros H Hu Hd Hp Hm.
  destruct (derived_params k kok x o H Hu Hd Hp) as (K3 & RH & _ & S).
  assert (E := init_ci k x o H Hu Hd).
  assert (C := ci_selection o ua up urho ur um (cs_A _ _ _ _ _ _ _ _ _ _ _ _ _ S) (cs_P _ _ _ _ _ _ _ _ _ _ _ _ _ S)
    (cs_R _ _ _ _ _ _ _ _ _ _ _ _ _ S) Hm (cs_MP _ _ _ _ _ _ _ _ _ _ _ _ _ S) K3 RH).
  split; intro I.
  - apply C. assert (I' := init_ci k _ o I (conj eq_refl eq_refl)). apply I'. unfold no_duration_a in *. kprojx. exact Hd.
  - apply C in I. destruct Hu as [Hu1 Hu2].
    revert H. unfold kep_init, kep_units. rewrite Hu1, Hu2. kprojx. cbn [rbind].
    unfold kep_duration, kep_omega, kep_incl, kep_times. kprojx.
    destruct Hd as [Hd|Hd].
    + rewrite Hd. destruct (ka_ecc x); cbn [rbind]; rewrite I, E; cbn [rbind]; auto.
    + destruct (ka_ecc x); [|congruence]. cbn [rbind]. rewrite I, E. cbn [rbind]. auto.
Qed.
Lemma as_given x o : kep_init k x = Ok o -> no_unit_kw x -> no_duration_a x -> positive_args k x -> 0 < o_m_star o ->
  kep_init k (reargs x o (given (ka_a x)) (given (ka_period x)) (given (ka_rho_star x)) (given (ka_r_star x)) (given (ka_m_star x))) = Ok o.
Proof.
  intros H Hu Hd Hp Hm. apply (selection x o _ _ _ _ _ H Hu Hd Hp Hm). assert (K := kept k kok x o H Hu Hd Hp). assert (E := init_ci k x o H Hu Hd). split.
  - destruct (legal (given (ka_a x)) (given (ka_period x)) (given (ka_rho_star x)) (given (ka_r_star x)) (given (ka_m_star x))) eqn:L; [reflexivity|]. exfalso.
    destruct Hp as [A1 A2 A3 A4 A5 A6]. unfold arg_pos, arg_nonneg in *. unfold consistent_inputs in E. revert L E.
    destruct (ka_m_planet x) as [qm|]; [destruct A6 as (v6 & A6 & _)|];
    (destruct (ka_a x) as [qa|]; [destruct A1 as (v1 & A1 & _)|]); (destruct (ka_period x) as [qp|]; [destruct A2 as (v2 & A2 & _)|]);
    cbn [given is_none andb opt_to_unit rbind rmap]; rewrite ?A6, ?A1, ?A2; cbn [rbind rmap];
    (destruct (ka_rho_star x) as [qr|]; [|]); (destruct (ka_r_star x) as [qs|]; [|]); (destruct (ka_m_star x) as [qt|]; [|]);
    cbn; try discriminate.
  - split.
    + intros [F1 F2]. apply (kp_r1 _ _ _ K); [destruct (ka_r_star x)|destruct (ka_m_star x)]; (reflexivity || discriminate).
    + intros F0 (F1 & F2 & F3). apply (kp_m1 _ _ _ K); [exact F0|destruct (ka_rho_star x)|destruct (ka_r_star x)|destruct (ka_m_star x)]; (reflexivity || discriminate).
Qed.
End S.
(** a planet of a star like the Sun *)
Definition solar_args (P : R) : kargs R := {|
  ka_period := Some (plain P); ka_a := None; ka_t0 := None; ka_tper := None;
  ka_incl := None; ka_b := None; ka_duration := None; ka_ecc := None;
  ka_omega := None; ka_sin_omega := None; ka_cos_omega := None; ka_Omega := None;
  ka_m_planet := Some (plain 0); ka_m_star := None; ka_r_star := None;
  ka_rho_star := None; ka_ror := None; ka_m_planet_units := None;
  ka_rho_star_units := None |}.
Definition with_radius (o : orbit R) (r : R) : orbit R :=
  {| o_a := o_a o; o_period := o_period o; o_rho_star := o_rho_star o; o_r_star := r;
     o_m_star := o_m_star o; o_m_planet := o_m_planet o; o_m_total := o_m_total o; o_n := o_n o; o_a_star := o_a_star o; o_a_planet := o_a_planet o; o_K0 := o_K0 o;
     o_Omega := o_Omega o; o_ecc := o_ecc o; o_M0 := o_M0 o; o_dcosidb := o_dcosidb o; o_b := o_b o; o_cos_incl := o_cos_incl o; o_incl := o_incl o;
     o_sin_incl := o_sin_incl o; o_t0 := o_t0 o; o_tper := o_tper o; o_tref := o_tref o; o_jac := o_jac o; o_duration := o_duration o |}.
Lemma solar_example : exists o, kep_init ek (solar_args 10) = Ok o /\ no_unit_kw (solar_args 10) /\ no_duration_a (solar_args 10) /\
  positive_args ek (solar_args 10) /\ 0 < o_m_star o /\ defaults_agree o true false true false false /\ ~ defaults_agree (with_radius o 2) false true true false false.
Proof.
  eexists. split; [reflexivity|]. split; [split; reflexivity|]. split; [left; reflexivity|]. split.
  - constructor; cbn; try exact I; eexists; (split; [reflexivity|lra]).
  - split; [cbn; lra|]. split; [split; intros; reflexivity|]. intros [H _]. specialize (H (conj eq_refl eq_refl)). cbn in H. lra.
Qed.
