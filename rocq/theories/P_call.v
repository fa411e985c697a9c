(** * Calls with positional arguments: property C98 *)
From Coq Require Import Reals List ZArith String.
From Verif Require Import Num CoreOps Inst M_units M_kepler M_kwargs M_tensor M_simple M_ttv M_call Spec_orbit Spec_params Spec_array Spec_kwargs Spec_ttv Spec_call
  L_call Ex_orbit Ex_system L_ttv6 Ex_call.
Import ListNotations.
Open Scope R_scope.
Open Scope string_scope.
Open Scope list_scope.

(** KeplerianOrbit: positional arguments are the keyword arguments of the same place *)
Theorem C98_kepler : forall (T B : Type) (N : Num T B) k (args : list (kval T)) kw, NoDup (map fst kw) ->
  (bindable kepler_order args kw -> kep_construct k args kw = kep_call k (named kepler_order args ++ kw)) /\
  (~ bindable kepler_order args kw -> kep_construct k args kw = Err TypeErr).
Proof. exact kep_positional. Qed.
Print Assumptions C98_kepler.

(** what a call gives *)
Theorem C98_kepler_gives : forall (T B : Type) (N : Num T B) k (args : list (kval T)) kw x, (List.length args <= List.length kepler_order)%nat ->
  call_gives (named kepler_order args ++ kw) x -> kep_construct k args kw = kep_init k x.
Proof. exact kep_positional_gives. Qed.
Print Assumptions C98_kepler_gives.

(** TTVOrbit without positional arguments is what C30-C37 are about *)
Theorem C98_ttv_keywords : forall k x, ttv_construct k [] x = ttv_init k x.
Proof. exact ttv_keywords. Qed.
Print Assumptions C98_ttv_keywords.

(** TTVOrbit with ttvs *)
Theorem C98_ttv_ttvs : forall k args ttvs times inds kw, NoDup (map fst kw) -> bindable kepler_order args kw ->
  ttv_construct k args (targs_of (Some ttvs) times inds kw) = ttv_init k (targs_of (Some ttvs) times inds (named kepler_order args ++ kw)).
Proof. exact ttv_positional_ttvs. Qed.
Print Assumptions C98_ttv_ttvs.

(** TTVOrbit with transit_times: the period is passed on by name, so that no positional argument is possible, not
    even where the call with keywords works *)
Theorem C98_ttv_times_refuted : forall k v args times inds kw o,
  ttv_init k (targs_of None (Some times) inds (named kepler_order (v :: args) ++ kw)) = Ok o ->
  ttv_construct k (v :: args) (targs_of None (Some times) inds kw) = Err TypeErr.
Proof. exact ttv_positional_times. Qed.
Print Assumptions C98_ttv_times_refuted.

(** SimpleTransitOrbit *)
Theorem C98_simple : forall (T B : Type) (N : Num T B) (args : list (kval T)) kw x, (List.length args <= List.length simple_order)%nat ->
  simple_given (named simple_order args ++ kw) x -> simple_construct args kw = Ok (simple_init x).
Proof. exact simple_positional. Qed.
Print Assumptions C98_simple.

(** the calls it refuses *)
Theorem C98_simple_refuses : forall (T B : Type) (N : Num T B) (args : list (kval T)) kw, NoDup (map fst kw) ->
  ~ bindable simple_order args kw \/ (exists n, In n (map fst kw) /\ ~ In n simple_order) \/
  omitted (named simple_order args ++ kw) "period" \/ omitted (named simple_order args ++ kw) "duration" ->
  simple_construct args kw = Err TypeErr.
Proof. exact simple_refuses. Qed.
Print Assumptions C98_simple_refuses.

(** SimpleTransitOrbit ignores units *)
Theorem C98_simple_units : forall (T B : Type) (N : Num T B) (kw kw' : list (string * kval T)), Forall2 same_number kw kw' ->
  simple_construct [] kw = simple_construct [] kw'.
Proof. exact simple_units. Qed.
Print Assumptions C98_simple_units.

(** the same arguments, in other units, as different KeplerianOrbits and the same SimpleTransitOrbit *)
Theorem C98_units_refuted : let kw q := [("period", KNum (Q 240 q))] in let d : list (string * kval R) := [("duration", KNum (plain (1 / 10)))] in
  (exists o o', kep_call ek (kw None) = Ok o /\ kep_call ek (kw (Some (u_hour ek))) = Ok o' /\ o_period o = 240 /\ o_period o' = 10) /\
  Forall2 same_number (kw None ++ d) (kw (Some (u_hour ek)) ++ d) /\
  exists s, simple_construct [] (kw None ++ d) = Ok s /\ simple_construct [] (kw (Some (u_hour ek)) ++ d) = Ok s /\ s_period s = 240.
Proof. exact units_differ. Qed.
Print Assumptions C98_units_refuted.

Example C98_example : bindable kepler_order ex_pos ex_poskw /\ call_gives (named kepler_order ex_pos ++ ex_poskw) ex_pos_args /\
  (exists o, kep_construct ek ex_pos ex_poskw = Ok o /\ o_period o = 10 /\ o_t0 o = 2 /\ o_b o = 1 / 2) /\
  ~ bindable kepler_order ex_pos [("t0", KNum (plain 1))].
Proof. exact positional_example. Qed.
Example C98_example_ttv : NoDup (map fst (ex_kw 2 ex_bs)) /\ bindable kepler_order ex_tpos (ex_kw 2 ex_bs) /\
  (exists o, ttv_construct ek ex_tpos (targs_of (Some ex_ttvs) None (Some ex_inds) (ex_kw 2 ex_bs)) = Ok o) /\
  (exists o, ttv_init ek (targs_of None (Some ex_times) (Some ex_inds) (named kepler_order ex_tpos ++ ex_kw 2 ex_bs)) = Ok o).
Proof. exact ttv_positional_example. Qed.
Example C98_example_simple : simple_given (named simple_order ex_spos ++ ex_poskw) ex_spos_args /\
  bindable simple_order ex_spos ex_poskw /\ ~ bindable simple_order ex_spos [("duration", KNum (plain 1))] /\ ~ In "radius" simple_order.
Proof. exact simple_positional_example. Qed.
