(** * The lists given to TTVOrbit: property C107 *)
From Coq Require Import Reals List Bool Arith ZArith String.
From Verif Require Import Num CoreOps Inst M_units M_kepler M_kwargs M_fin M_tensor M_ttv Spec_orbit Spec_params Spec_array Spec_ttv Spec_ttvlist
  Ex_orbit Ex_system L_ttv6 L_ttvlist3.
Import ListNotations.
Open Scope R_scope.

(** ttvs: which lists are accepted *)
Theorem C107_accepted : forall k ttvs times inds kw o n n', kep_call k kw = Ok o -> has_entries (o_period o) n -> has_entries (o_t0 o) n' ->
  ((exists o', ttv_init k (targs_of (Some ttvs) times inds kw) = Ok o') <->
   (List.length (labels_of ttvs inds) = List.length ttvs /\ (List.length ttvs <= n)%nat /\ (List.length ttvs <= n')%nat) /\
   forall i z l, nth_error (labels_of ttvs inds) i = Some z -> nth_error ttvs i = Some l -> fits_labels z l).
Proof. exact ttv_accepted. Qed.
Print Assumptions C107_accepted.

(** without transit_inds *)
Theorem C107_default_labels : forall k ttvs times kw o n n', kep_call k kw = Ok o -> has_entries (o_period o) n -> has_entries (o_t0 o) n' ->
  ((exists o', ttv_init k (targs_of (Some ttvs) times None kw) = Ok o') <->
   (List.length ttvs <= n)%nat /\ (List.length ttvs <= n')%nat /\ forall l, In l ttvs -> l <> []).
Proof. exact ttv_default_labels. Qed.
Print Assumptions C107_default_labels.

(** more lists than planets, scalars for period or t0, or a different number of lists in transit_inds *)
Theorem C107_index_error : forall k ttvs times inds kw o n n', kep_call k kw = Ok o -> has_entries (o_period o) n -> has_entries (o_t0 o) n' ->
  (forall i z l, nth_error (labels_of ttvs inds) i = Some z -> nth_error ttvs i = Some l -> fits_labels z l) ->
  ~ (List.length (labels_of ttvs inds) = List.length ttvs /\ (List.length ttvs <= n)%nat /\ (List.length ttvs <= n')%nat) ->
  ttv_init k (targs_of (Some ttvs) times inds kw) = Err IndexErr.
Proof. exact ttv_not_enough. Qed.
Print Assumptions C107_index_error.

(** labels that do not fit *)
Theorem C107_label_errors : forall k ttvs times inds kw o n n' e, kep_call k kw = Ok o -> has_entries (o_period o) n -> has_entries (o_t0 o) n' ->
  List.length (labels_of ttvs inds) = List.length ttvs -> (List.length ttvs <= n)%nat -> (List.length ttvs <= n')%nat ->
  (forall i z l, nth_error (labels_of ttvs inds) i = Some z -> nth_error ttvs i = Some l -> fits_labels z l \/ label_error z l e) ->
  (exists i z l, nth_error (labels_of ttvs inds) i = Some z /\ nth_error ttvs i = Some l /\ label_error z l e) ->
  ttv_init k (targs_of (Some ttvs) times inds kw) = Err e.
Proof. exact ttv_label_errors. Qed.
Print Assumptions C107_label_errors.

Example C107_example : exists o, kep_call ek (ex_tkw 2 ex_bs) = Ok o /\ has_entries (o_period o) 2 /\ has_entries (o_t0 o) 2 /\
  (List.length (labels_of ex_ttvs (Some ex_inds)) = List.length ex_ttvs /\ (List.length ex_ttvs <= 2)%nat) /\
  (forall i z l, nth_error (labels_of ex_ttvs (Some ex_inds)) i = Some z -> nth_error ex_ttvs i = Some l -> fits_labels z l) /\
  fits_labels [0; 1; 3]%Z [Fin 1] /\ label_error [0; 1; 3]%Z [Fin 1; Fin 2] ShapeErr /\ label_error [] [Fin 1] ValueError /\
  label_error [0; -3; 1]%Z [Fin 1; Fin 2; Fin 3] IndexErr.
Proof. exact lists_example. Qed.

(** transit_times: missing lists of labels are an error *)
Theorem C107_times_missing : forall k times l kw, (List.length l < List.length times)%nat ->
  (forall i z tt, nth_error l i = Some z -> nth_error times i = Some tt -> List.length z = List.length tt) ->
  ttv_init k (targs_of None (Some times) (Some l) kw) = Err IndexErr.
Proof. exact ttv_times_missing. Qed.
Print Assumptions C107_times_missing.

(** surplus ones are ignored *)
Theorem C107_times_surplus : forall k times l l' kw, List.length l = List.length times ->
  ttv_init k (targs_of None (Some times) (Some (l ++ l')) kw) = ttv_init k (targs_of None (Some times) (Some l) kw).
Proof. exact ttv_times_surplus. Qed.
Print Assumptions C107_times_surplus.

Example C107_example_times : exists o, ttv_init ek (targs_of None (Some ex_times) (Some ex_inds) (ex_kw 2 ex_bs)) = Ok o /\
  List.length ex_inds = List.length ex_times /\ (List.length (firstn 1 ex_inds) < List.length ex_times)%nat /\
  (forall i z tt, nth_error ex_inds i = Some z -> nth_error ex_times i = Some tt -> List.length z = List.length tt).
Proof. exact times_lists_example. Qed.

(** one list for several planets: all planets are shifted by the transits of that list *)
Theorem C107_one_list : forall k n N o os tts t ts, consts_ok k -> short_system k n 1 o os tts -> is_vector N t ->
  (forall m, (m < N)%nat -> aget t (at_time m) = Fin (ts m)) ->
  exists v : nat -> R, (forall m, (m < N)%nat -> nearest (tts 0%nat) (ts m) (v m)) /\ forall b,
   is_table3 n N (tpos k o b t None false) (fun m j => fin3 (pos k (os j) b (o_t0 (os j) + (ts m - v m)) None false)) /\
   is_table3 n N (tvel o b t) (fun m j => fin3 (vel (os j) b (o_t0 (os j) + (ts m - v m)))).
Proof. exact ttv_one_list. Qed.
Print Assumptions C107_one_list.

Example C107_example_one_list : exists o os, consts_ok ek /\ ttv_init ek ex_one = Ok o /\ short_system ek 3 1 o os ex_tts /\ is_vector 3 (vector 3 INR) /\
   (forall m, (m < 3)%nat -> aget (vector 3 INR) (at_time m) = Fin (INR m)).
Proof. exact one_list_example. Qed.

(** several lists, but fewer than planets: accepted, but nothing can be computed *)
Theorem C107_several_lists : forall k n m N o os tts t b, consts_ok k -> short_system k n m o os tts -> (2 <= m)%nat -> is_vector N t ->
  let bad (v : tens * tens * tens) := ash (fst (fst v)) = Err ShapeErr /\ ash (snd (fst v)) = Err ShapeErr /\ ash (snd v) = Err ShapeErr in
  bad (tpos k o b t None false) /\ bad (tvel o b t).
Proof. exact ttv_several_lists. Qed.
Print Assumptions C107_several_lists.

Example C107_example_several_lists : exists o os, consts_ok ek /\ ttv_init ek ex_two = Ok o /\ short_system ek 3 2 o os ex_tts /\ is_vector 3 (vector 3 INR) /\
   (forall m, (m < 3)%nat -> aget (vector 3 INR) (at_time m) = Fin (INR m)).
Proof. exact several_lists_example. Qed.
