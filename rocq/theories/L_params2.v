(** * Proofs of the constructor properties, exact reals *)
From Coq Require Import Reals Lra Lia ZArith Bool List.
From Coquelicot Require Import Coquelicot.
From Verif Require Import Num CoreOps Inst M_units M_kepler L_real L_kepop Spec_orbit Spec_params L_orbit L_params L_motion L_pmotion.
Open Scope R_scope.

Section S.
Variable k : consts.
Hypothesis kok : consts_ok k.

(** the density argument in solar units *)
Lemma rho_arg (q : qty R) v : to_unit q (u_gcc k) = Ok v ->
  match qu q with
  | Some _ => rmap Some (to_unit q (u_rho_sun k))
  | None => Ok (Some ((qv q / nlit (gcc_per_sun k))%num))
  end = Ok (Some (v / gcc_per_sun k)).
Proof.
  assert (Hg := ok_g _ kok). assert (HR := ok_R _ kok). assert (HM := ok_M _ kok).
  unfold to_unit. destruct (qu q) as [u|].
  - unfold uto. cbn. destruct (dim_eqb _ _); [|discriminate]. cbn. intros H; inversion H; subst.
    f_equal. f_equal. simR. rewrite (ok_gcc _ kok). simpl. field. lra.
  - intros H; inversion H; subst. reflexivity.
Qed.

Lemma arg_pos_inv u x : arg_pos k u x ->
  match x with None => opt_to_unit x u = Ok None
  | Some q => exists v, to_unit q u = Ok v /\ opt_to_unit x u = Ok (Some v) /\ 0 < v end.
Proof.
  destruct x as [q|]; [|reflexivity]. intros [v [Hv Hp]]. exists v. split; auto. split; auto.
  unfold opt_to_unit. rewrite Hv. reflexivity.
Qed.
Lemma arg_nonneg_inv u x : arg_nonneg k u x ->
  exists o, opt_to_unit x u = Ok o /\ match x, o with
    | None, None => True | Some q, Some v => to_unit q u = Ok v /\ 0 <= v | _, _ => False end.
Proof.
  destruct x as [q|]; cbn. intros [v [Hv Hp]]. exists (Some v). rewrite Hv. auto. exists None. auto.
Qed.

(** what the six returned values are, in terms of the supplied ones *)
Record ci_spec (a p rho r m mp : option (qty R)) (A P RHO RS MS MP : R) : Prop := {
  cs_A : 0 < A; cs_P : 0 < P; cs_R : 0 < RS; cs_M : 0 < MS + MP; cs_MP : 0 <= MP;
  cs_MS : given a && given p = false -> 0 < MS;
  cs_a : forall q, a = Some q -> to_unit q (u_R_sun k) = Ok A;
  cs_p : forall q, p = Some q -> to_unit q (u_day k) = Ok P;
  cs_r : forall q, r = Some q -> to_unit q (u_R_sun k) = Ok RS;
  cs_m : forall q, m = Some q -> to_unit q (u_M_sun k) = Ok MS;
  cs_rho : forall q, rho = Some q -> to_unit q (u_gcc k) = Ok RHO;
  cs_mp : match mp with Some q => to_unit q (u_M_sun k) = Ok MP | None => MP = 0 end;
  cs_r1 : r = None -> m = None -> RS = 1;
  cs_m1 : given a && given p = false -> rho = None -> r = None -> m = None -> MS = 1
}.

Lemma ci_spec_holds a p rho r m mp A P RHO RS MS MP :
  arg_pos k (u_R_sun k) a -> arg_pos k (u_day k) p -> arg_pos k (u_gcc k) rho ->
  arg_pos k (u_R_sun k) r -> arg_pos k (u_M_sun k) m -> arg_nonneg k (u_M_sun k) mp ->
  consistent_inputs k a p rho r m mp = Ok (A, P, RHO, RS, MS, MP) ->
  ci_spec a p rho r m mp A P RHO RS MS MP.
Proof.
  intros Ha Hp Hrho Hr Hm Hmp. assert (Hpi := PI_pos). assert (HG := ok_G _ kok).
  assert (Hgc := consts_gcc_pos k kok).
  apply arg_pos_inv in Ha. apply arg_pos_inv in Hp. apply arg_pos_inv in Hrho.
  apply arg_pos_inv in Hr. apply arg_pos_inv in Hm. destruct (arg_nonneg_inv _ _ Hmp) as [mpo [Empo Hmpo]].
  unfold consistent_inputs. rewrite Empo. cbn [rbind].
  assert (Hpow : forall z : R, 0 < z -> 0 < z * (z * z)) by (intros; repeat apply Rmult_lt_0_compat; auto).
  assert (Hmpv : 0 <= match mpo with Some m => m | None => 0 end /\
     match mp with Some q => to_unit q (u_M_sun k) = Ok match mpo with Some m => m | None => 0 end
       | None => match mpo with Some m => m | None => 0 end = 0 end).
  { destruct mp, mpo; try contradiction; [destruct Hmpo; auto|split; [lra|auto]]. }
  destruct Hmpv as [Hmp0 Hmpe].
  destruct a as [a|], p as [p|]; cbn [is_none andb]; try discriminate.
  - destruct Ha as (va & Ea & -> & Pa). destruct Hp as (vp & Ep & -> & Pp). cbn [rbind].
    destruct rho as [rho|], m as [m|]; cbn [is_none negb orb rbind]; try discriminate.
    assert (Er : exists vr, match r with None => Ok (nlit 1) | Some q => to_unit q (u_R_sun k) end = Ok vr /\
       0 < vr /\ (forall q, r = Some q -> to_unit q (u_R_sun k) = Ok vr) /\ (r = None -> vr = 1)).
    { destruct r as [r|]. destruct Hr as (vr & Er & _ & Pr). exists vr. split; auto. split; auto.
      split. intros q Hq; inversion Hq; subst; auto. discriminate.
      exists 1. split; auto. split; [lra|]. split; [discriminate|auto]. }
    destruct Er as (vr & -> & Pr & Kr & K1). cbn [rbind]. simR.
    assert (Emp : match mpo with Some m => m | None => 0 end = match mpo with Some m => m | None => 0 end) by auto.
    set (mpv := match mpo with Some m => m | None => 0 end) in *.
    intros H; inversion H; subst. constructor; auto; try (intros; discriminate).
    + replace (4 * PI * PI * (A * (A * A)) / (G_grav k * (P * P)) - mpv + mpv)
        with (4 * PI * PI * (A * (A * A)) / (G_grav k * (P * P))) by ring.
      apply Rdiv_lt_0_compat; [|apply Rmult_lt_0_compat; nra]. apply Rmult_lt_0_compat; auto. nra.
    + intros q Hq; inversion Hq; subst; auto.
    + intros q Hq; inversion Hq; subst; auto.
  - { destruct Ha as (va & Ea & -> & Pa). rewrite Hp. cbn [rbind].
    destruct rho as [rho|], r as [r|], m as [m|]; cbn [is_none negb orb andb b2n Nat.add Nat.eqb]; try discriminate;
      try (destruct Hrho as (vrho & Erho & _ & Prho); rewrite (rho_arg rho vrho Erho)); cbn [rbind];
      try (destruct Hr as (vr & Er & -> & Pr)); cbn [rbind];
      try (destruct Hm as (vm & Em & -> & Pm)); cbn [rbind opt_to_unit to_unit plain qu qv rmap]; simR;
      set (mpv := match mpo with Some m => m | None => 0 end) in *;
      intros H; injection H as H1 H2 H3 H4 H5 H6; simR.
    all: assert (Hms : 0 < MS) by
      (rewrite <- H5; first [assumption | apply Rlt_0_1 | apply Rdiv_lt_0_compat; [|lra]; apply Rmult_lt_0_compat; [|apply Rdiv_lt_0_compat; auto];
              apply Rmult_lt_0_compat; [lra|first [apply Hpow; assumption | lra]] ]).
    all: assert (HRS : 0 < RS) by
      (rewrite <- H4; first [assumption | apply Rlt_0_1 | apply Rpowr_pos; apply Rdiv_lt_0_compat; [lra|]; apply Rmult_lt_0_compat; [lra|]; apply Rdiv_lt_0_compat; auto]).
    all: assert (HMP : 0 <= MP) by (rewrite <- H6; auto).
    all: assert (HA : 0 < A) by (rewrite <- H1; auto).
    all: assert (Hps : 0 < P) by (rewrite <- H2, H5;
      apply Rdiv_lt_0_compat; [apply Rmult_lt_0_compat; [lra|apply Rpowr_pos; auto]|apply sqrt_lt_R0; nra]).
    all: constructor; auto; try (intros; discriminate); try lra;
      try (intros q Hq; inversion Hq; subst; auto; fail);
      try (destruct mp; rewrite <- H6; auto; fail);
      try (intros q Hq; inversion Hq; subst; replace (vrho / gcc_per_sun k * gcc_per_sun k) with vrho by (field; lra); auto).
    }
  - { destruct Hp as (vp & Ep & -> & Pp). rewrite Ha. cbn [rbind].
    destruct rho as [rho|], r as [r|], m as [m|]; cbn [is_none negb orb andb b2n Nat.add Nat.eqb]; try discriminate;
      try (destruct Hrho as (vrho & Erho & _ & Prho); rewrite (rho_arg rho vrho Erho)); cbn [rbind];
      try (destruct Hr as (vr & Er & -> & Pr)); cbn [rbind];
      try (destruct Hm as (vm & Em & -> & Pm)); cbn [rbind opt_to_unit to_unit plain qu qv rmap]; simR;
      set (mpv := match mpo with Some m => m | None => 0 end) in *;
      intros H; injection H as H1 H2 H3 H4 H5 H6; simR.
    all: assert (Hms : 0 < MS) by
      (rewrite <- H5; first [assumption | apply Rlt_0_1 | apply Rdiv_lt_0_compat; [|lra]; apply Rmult_lt_0_compat; [|apply Rdiv_lt_0_compat; auto];
              apply Rmult_lt_0_compat; [lra|first [apply Hpow; assumption | lra]] ]).
    all: assert (HRS : 0 < RS) by
      (rewrite <- H4; first [assumption | apply Rlt_0_1 | apply Rpowr_pos; apply Rdiv_lt_0_compat; [lra|]; apply Rmult_lt_0_compat; [lra|]; apply Rdiv_lt_0_compat; auto]).
    all: assert (HMP : 0 <= MP) by (rewrite <- H6; auto).
    all: assert (HP : 0 < P) by (rewrite <- H2; auto).
    all: assert (Hps : 0 < A) by (rewrite <- H1, H5; apply Rpowr_pos; apply Rdiv_lt_0_compat; [apply Rmult_lt_0_compat; nra|nra]).
    all: constructor; auto; try (intros; discriminate); try lra;
      try (intros q Hq; inversion Hq; subst; auto; fail);
      try (destruct mp; rewrite <- H6; auto; fail);
      try (intros q Hq; inversion Hq; subst; replace (vrho / gcc_per_sun k * gcc_per_sun k) with vrho by (field; lra); auto).
    }
Qed.

(** extraction of the consistent_inputs call from a successful construction *)
Lemma init_ci x o : kep_init k x = Ok o -> no_unit_kw x -> no_duration_a x ->
  consistent_inputs k (ka_a x) (ka_period x) (ka_rho_star x) (ka_r_star x) (ka_m_star x) (ka_m_planet x)
  = Ok (o_a o, o_period o, o_rho_star o, o_r_star o, o_m_star o, o_m_planet o).
Proof.
  intros H [Hu1 Hu2] Hd. unfold kep_init in H. inv_bind H. destruct v as [mpl rho].
  unfold kep_units in E. rewrite Hu1, Hu2 in E. cbn in E. inversion E; subst; clear E.
  inv_bind H. destruct v as [[[a rs] dur] dao].
  assert (a = ka_a x /\ rs = ka_r_star x) as [-> ->].
  { unfold kep_duration in E. destruct Hd as [Hd|Hd].
    - rewrite Hd in E. destruct (ka_ecc x); inversion E; auto.
    - destruct (ka_ecc x); [|congruence]. inversion E; auto. }
  inv_bind H. destruct v as [[[[[A P] RHO] RS] MS] MP].
  inv_bind H. inv_bind H. destruct v0 as [[[b ci] inc] durattr].
  inv_bind H. destruct v0 as [t0 tp]. inversion H; subst; reflexivity.
Qed.

Lemma derived_params x o : kep_init k x = Ok o -> no_unit_kw x -> no_duration_a x -> positive_args k x ->
  G_grav k * (o_m_star o + o_m_planet o) * (o_period o * o_period o)
     = 4 * (PI * PI) * (o_a o * o_a o * o_a o) /\
  o_rho_star o * (4 * PI * (o_r_star o * o_r_star o * o_r_star o)) = 3 * o_m_star o * gcc_per_sun k /\
  o_m_total o = o_m_star o + o_m_planet o /\
  ci_spec (ka_a x) (ka_period x) (ka_rho_star x) (ka_r_star x) (ka_m_star x) (ka_m_planet x)
     (o_a o) (o_period o) (o_rho_star o) (o_r_star o) (o_m_star o) (o_m_planet o).
Proof.
  intros H Hu Hd [p1 p2 p3 p4 p5 p6]. assert (E := init_ci x o H Hu Hd).
  assert (S := ci_spec_holds _ _ _ _ _ _ _ _ _ _ _ _ p1 p2 p5 p3 p4 p6 E).
  destruct (ci_relations k kok _ _ _ _ _ _ _ _ _ _ _ _ E (cs_A _ _ _ _ _ _ _ _ _ _ _ _ S) (cs_P _ _ _ _ _ _ _ _ _ _ _ _ S)
    (cs_R _ _ _ _ _ _ _ _ _ _ _ _ S) (cs_M _ _ _ _ _ _ _ _ _ _ _ _ S)) as [K3 RH].
  split; auto. split; auto. split; auto.
  unfold kep_init in H. inv_bind H. destruct v. inv_bind H. destruct v as [[[a rs] dur] dao].
  inv_bind H. destruct v as [[[[[A P] RHO] RS] MS] MP].
  inv_bind H. inv_bind H. destruct v0 as [[[b ci] inc] durattr].
  inv_bind H. destruct v0 as [t0 tp]. inversion H; subst; reflexivity.
Qed.
End S.
