(** * Concrete cases for C98 *)
From Coq Require Import Reals List Bool Arith ZArith Lra Lia String.
From Verif Require Import Num CoreOps Inst M_units M_kepler M_kwargs M_tensor M_ttv M_simple M_call Spec_orbit Spec_params Spec_array Spec_kwargs Spec_ttv Spec_call
  L_real L_params3 L_kwargs2 L_ttv6 L_call Ex_orbit Ex_system.
Import ListNotations.
Open Scope R_scope.
Open Scope string_scope.
Open Scope list_scope.

Ltac inlist := cbn; repeat (first [left; reflexivity|right]).
Ltac fld := cbn; unfold omitted; cbn; first [
  solve [eexists; split; [inlist|reflexivity]] | solve [left; intuition discriminate] | solve [right; inlist] | solve [inlist] |
  solve [right; split; [intuition discriminate|reflexivity]] | solve [intuition discriminate]].
(** KeplerianOrbit(10, None, 2, b=0.5) *)
Definition ex_pos : list (kval R) := [KNum (plain 10); KNone; KNum (plain 2)].
Definition ex_poskw : list (string * kval R) := [("b", KNum (plain (1 / 2)))].
Definition ex_pos_args : kargs R :=
  {| ka_period := Some (plain 10); ka_a := None; ka_t0 := Some 2; ka_tper := None;
     ka_incl := None; ka_b := Some (1 / 2); ka_duration := None; ka_ecc := None; ka_omega := None;
     ka_sin_omega := None; ka_cos_omega := None; ka_Omega := None; ka_m_planet := Some (plain 0);
     ka_m_star := None; ka_r_star := None; ka_rho_star := None; ka_ror := None;
     ka_m_planet_units := None; ka_rho_star_units := None |}.
Lemma positional_example : bindable kepler_order ex_pos ex_poskw /\ call_gives (named kepler_order ex_pos ++ ex_poskw) ex_pos_args /\
  (exists o, kep_construct ek ex_pos ex_poskw = Ok o /\ o_period o = 10 /\ o_t0 o = 2 /\ o_b o = 1 / 2) /\
  ~ bindable kepler_order ex_pos [("t0", KNum (plain 1))].
Proof.
  assert (ND : NoDup (map fst (named kepler_order ex_pos ++ ex_poskw))) by (cbn; nodup).
  split; [split; [cbn; lia|exact ND]|]. split; [|split].
  - constructor; [exact ND|..]; fld.
  - eexists. split; [reflexivity|]. repeat split.
  - intros [_ H]. cbn in H. inversion H as [|? ? _ H1]; subst. inversion H1 as [|? ? _ H2]; subst. inversion H2 as [|? ? H3 _]; subst. apply H3. left. reflexivity.
Qed.
(** TTVOrbit(periods, None, t0s, b=..., m_planet=..., ttvs=...), and with transit_times *)
Definition ex_tpos : list (kval tens) := [KNum (plain (vector 2 (fun _ => 10))); KNone; KNum (plain (vector 2 (fun _ => 2)))].
Lemma ttv_positional_example : NoDup (map fst (ex_kw 2 ex_bs)) /\ bindable kepler_order ex_tpos (ex_kw 2 ex_bs) /\
  (exists o, ttv_construct ek ex_tpos (targs_of (Some ex_ttvs) None (Some ex_inds) (ex_kw 2 ex_bs)) = Ok o) /\
  (exists o, ttv_init ek (targs_of None (Some ex_times) (Some ex_inds) (named kepler_order ex_tpos ++ ex_kw 2 ex_bs)) = Ok o).
Proof.
  split; [cbn; nodup|]. split; [split; [cbn; lia|cbn; nodup]|]. split.
  - destruct (ttv_construct ek ex_tpos (targs_of (Some ex_ttvs) None (Some ex_inds) (ex_kw 2 ex_bs))) as [o|] eqn:E; [|discriminate E]. exists o. reflexivity.
  - destruct (ttv_init ek (targs_of None (Some ex_times) (Some ex_inds) (named kepler_order ex_tpos ++ ex_kw 2 ex_bs))) as [o|] eqn:E; [|discriminate E]. exists o. reflexivity.
Qed.
(** SimpleTransitOrbit(10, 0.2, b=0.5) *)
Definition ex_spos : list (kval R) := [KNum (plain 10); KNum (plain (2 / 10))].
Definition ex_spos_args : sargs R := {| sa_period := 10; sa_duration := 2 / 10; sa_t0 := None; sa_b := Some (1 / 2); sa_r_star := None; sa_ror := None |}.
Lemma simple_positional_example : simple_given (named simple_order ex_spos ++ ex_poskw) ex_spos_args /\
  bindable simple_order ex_spos ex_poskw /\ ~ bindable simple_order ex_spos [("duration", KNum (plain 1))] /\ ~ In "radius" simple_order.
Proof.
  assert (ND : NoDup (map fst (named simple_order ex_spos ++ ex_poskw))) by (cbn; nodup).
  split; [|split; [split; [cbn; lia|exact ND]|split]].
  - constructor; [exact ND|cbn; intuition|..]; fld.
  - intros [_ H]. cbn in H. inversion H as [|? ? _ H1]; subst. inversion H1 as [|? ? H2 _]; subst. apply H2. left. reflexivity.
  - cbn. intuition discriminate.
Qed.
(** an hour *)
Definition u_hour (k : consts) : unit_t := {| udim := (0, 0, 1)%Z; uscale := s_day k / 24 |}.
Lemma units_differ : let kw q := [("period", KNum (Q 240 q))] in let d : list (string * kval R) := [("duration", KNum (plain (1 / 10)))] in
  (exists o o', kep_call ek (kw None) = Ok o /\ kep_call ek (kw (Some (u_hour ek))) = Ok o' /\ o_period o = 240 /\ o_period o' = 10) /\
  Forall2 same_number (kw None ++ d) (kw (Some (u_hour ek)) ++ d) /\
  exists s, simple_construct [] (kw None ++ d) = Ok s /\ simple_construct [] (kw (Some (u_hour ek)) ++ d) = Ok s /\ s_period s = 240.
Proof.
  intros kw d. split; [|split].
  - eexists. eexists. split; [reflexivity|]. split; [reflexivity|]. split; [reflexivity|]. cbn. field.
  - repeat constructor.
  - eexists. split; [reflexivity|]. split; reflexivity.
Qed.
