(** * Properties of TTVOrbit (C30-C37) *)
From Coq Require Import Reals List Bool Arith ZArith Sorted String.
From Verif Require Import Num CoreOps Inst M_units M_kepler M_kwargs M_fin M_tensor M_ttv Spec_orbit Spec_params Spec_array Spec_ttv
  L_ttv1 L_ttv2 L_ttv3 L_ttv4 L_ttv5 L_ttv6 L_ttvlab L_ttvone Ex_orbit Ex_system L_ptransit.
Import ListNotations.
Open Scope R_scope.
Local Notation length := List.length.

(** ** C30 *)
Theorem C30_least_squares : forall k x o times, ttv_init k x = Ok o -> ta_ttvs x = None -> ta_times x = Some times ->
  forall i ys, nth_error times i = Some (map Fin ys) ->
  exists inds, given_labels x i (map Fin ys) = Some inds /\ nth_error (tt_inds o) i = Some inds /\
  (length inds = length ys -> (exists p q, In p inds /\ In q inds /\ p <> q) ->
   exists a b, entry (o_t0 (tt_orbit o)) i = Fin a /\ entry (tt_period o) i = Fin b /\
     nth_error (tt_ttvs o) i = Some (map Fin (residuals inds ys a b)) /\
     (forall a' b', sse inds ys a b <= sse inds ys a' b' /\ (sse inds ys a' b' = sse inds ys a b -> a' = a /\ b' = b)) /\
     rsum (residuals inds ys a b) = 0 /\ rdot inds (residuals inds ys a b) = 0) /\
  (length inds = length ys -> ys <> [] -> (exists z, forall j, In j inds -> j = z) ->
   entry (o_t0 (tt_orbit o)) i = NaN /\ entry (tt_period o) i = NaN /\ nth_error (tt_ttvs o) i = Some (map (fun _ => NaN) ys)).
Proof. exact ttv_least_squares. Qed.
Print Assumptions C30_least_squares.
Example C30_example : exists o, ttv_init ek ex_xt = Ok o /\ tt_inds o = ex_inds /\
  lookup "period" (ta_kw ex_xt) = None /\ lookup "delta_log_period" (ta_kw ex_xt) = None /\
  (forall i inds tt, nth_error (tt_inds o) i = Some inds -> nth_error ex_times i = Some tt ->
     length inds = length tt /\ (exists p q, In p inds /\ In q inds /\ p <> q) /\ exists ys, tt = map Fin ys).
Proof. exact ex_fit. Qed.
Example C30_single_example : exists o, ttv_init ek ex_xs = Ok o /\ nth_error (tt_inds o) 0 = Some [0%Z].
Proof. exact ex_single. Qed.

(** ** C31 *)
Theorem C31_round_trip : forall k x o times, ttv_init k x = Ok o -> ta_ttvs x = None -> ta_times x = Some times ->
  lookup "period" (ta_kw x) = None -> lookup "delta_log_period" (ta_kw x) = None ->
  (forall i inds tt, nth_error (tt_inds o) i = Some inds -> nth_error times i = Some tt ->
     length inds = length tt /\ (exists p q, In p inds /\ In q inds /\ p <> q) /\ exists ys, tt = map Fin ys) ->
  ttv_init k (from_ttvs (tt_ttvs o) (tt_inds o) (tt_period o) (o_t0 (tt_orbit o)) (ta_kw x)) = Ok o.
Proof. exact ttv_round_trip. Qed.
Print Assumptions C31_round_trip.
Example C31_example : exists o, ttv_init ek ex_xt = Ok o /\ tt_inds o = ex_inds /\
  lookup "period" (ta_kw ex_xt) = None /\ lookup "delta_log_period" (ta_kw ex_xt) = None /\
  (forall i inds tt, nth_error (tt_inds o) i = Some inds -> nth_error ex_times i = Some tt ->
     length inds = length tt /\ (exists p q, In p inds /\ In q inds /\ p <> q) /\ exists ys, tt = map Fin ys).
Proof. exact ex_fit. Qed.

Theorem C31_transit_times : forall k x o ttvs, ttv_init k x = Ok o -> ta_ttvs x = Some ttvs ->
  tt_ttvs o = ttvs /\ forall i ttv, nth_error ttvs i = Some ttv ->
  exists inds t0 p tt, tix (o_t0 (tt_orbit o)) i = Ok t0 /\ tix (o_period (tt_orbit o)) i = Ok p /\ nth_error (tt_inds o) i = Some inds /\ nth_error (tt_times o) i = Some tt /\
  (ta_inds x = None -> inds = map Z.of_nat (seq 0 (length ttv))) /\ (forall l, ta_inds x = Some l -> nth_error l i = Some inds) /\
  (length inds = length ttv -> length tt = length ttv /\
   forall q z v, nth_error inds q = Some z -> nth_error ttv q = Some v ->
   nth_error tt q = Some (fadd (fadd t0 (fmul p (Fin (IZR z)))) v)).
Proof. exact ttv_labels. Qed.
Print Assumptions C31_transit_times.
Example C31_transit_times_example : exists o os, consts_ok ek /\ ttv_init ek ex_x = Ok o /\ ttv_system ek 2 o os ex_tts /\ is_vector 3 (vector 3 INR) /\
   (forall m, (m < 3)%nat -> aget (vector 3 INR) (at_time m) = Fin (INR m)).
Proof. exact ex_ttv. Qed.

(** ** C32: every time is treated as the time since its nearest transit *)
Theorem C32_nearest : forall k n N o os tts t ts, consts_ok k -> ttv_system k n o os tts -> is_vector N t ->
  (forall m, (m < N)%nat -> aget t (at_time m) = Fin (ts m)) ->
  exists v : nat -> nat -> R,
  (forall m j, (m < N)%nat -> (j < n)%nat -> nearest (tts j) (ts m) (v m j)) /\ forall b,
  is_table3 n N (tpos k o b t None false) (fun m j => fin3 (pos k (os j) b (o_t0 (os j) + (ts m - v m j)) None false)) /\
  is_table3 n N (tvel o b t) (fun m j => fin3 (vel (os j) b (o_t0 (os j) + (ts m - v m j)))).
Proof. exact ttv_tables. Qed.
Print Assumptions C32_nearest.
Example C32_example : exists o os, consts_ok ek /\ ttv_init ek ex_x = Ok o /\ ttv_system ek 2 o os ex_tts /\ is_vector 3 (vector 3 INR) /\
   (forall m, (m < 3)%nat -> aget (vector 3 INR) (at_time m) = Fin (INR m)).
Proof. exact ex_ttv. Qed.

(** ** C33 *)
Theorem C33_at_transits : forall k n N o os tts t ts, consts_ok k -> ttv_system k n o os tts -> is_vector N t ->
  (forall m, (m < N)%nat -> aget t (at_time m) = Fin (ts m)) ->
  forall b, exists f g, is_table3 n N (tpos k o b t None false) f /\ is_table3 n N (tvel o b t) g /\
  forall m j, (m < N)%nat -> (j < n)%nat -> In (ts m) (tts j) ->
    f m j = fin3 (pos k (os j) b (o_t0 (os j)) None false) /\ g m j = fin3 (vel (os j) b (o_t0 (os j))).
Proof. exact at_transits. Qed.
Print Assumptions C33_at_transits.
(** the third time, 2, is a transit of the first planet *)
Example C33_example : exists o os, consts_ok ek /\ ttv_init ek ex_x = Ok o /\ ttv_system ek 2 o os ex_tts /\ is_vector 3 (vector 3 INR) /\
   (forall m, (m < 3)%nat -> aget (vector 3 INR) (at_time m) = Fin (INR m)).
Proof. exact ex_ttv. Qed.

Theorem C33_no_variation : forall k n N x ttvs o os tts t ts, consts_ok k -> ttv_init k x = Ok o -> ta_ttvs x = Some ttvs ->
  (forall l, In l ttvs -> forall v, In v l -> v = Fin 0) ->
  ttv_system k n o os tts -> is_vector N t -> (forall m, (m < N)%nat -> aget t (at_time m) = Fin (ts m)) ->
  forall b, exists f g,
  is_table3 n N (tpos k o b t None false) f /\ is_table3 n N (pos k (tt_orbit o) b t None false) f /\
  is_table3 n N (tvel o b t) g /\ is_table3 n N (vel (tt_orbit o) b t) g.
Proof. exact no_variation. Qed.
Print Assumptions C33_no_variation.
Example C33_no_variation_example : exists o os, consts_ok ek /\ ttv_init ek ex_x0 = Ok o /\ ttv_system ek 2 o os ex_tts0 /\ is_vector 3 (vector 3 INR) /\
   (forall m, (m < 3)%nat -> aget (vector 3 INR) (at_time m) = Fin (INR m)).
Proof. exact ex_ttv0. Qed.

(** ** C34 *)
Theorem C34_filled_in : forall k x o, ttv_init k x = Ok o -> forall i inds times,
  nth_error (tt_inds o) i = Some inds -> nth_error (tt_times o) i = Some times -> inds <> [] ->
  length inds = length times -> NoDup inds -> (forall z, In z inds -> (0 <= z)%Z) ->
  exists t0 p m all, tix (o_t0 (tt_orbit o)) i = Ok t0 /\ tix (o_period (tt_orbit o)) i = Ok p /\
    nth_error (tt_all o) i = Some all /\ In m inds /\ (forall z, In z inds -> (z <= m)%Z) /\ length all = S (Z.to_nat m) /\
    (forall q z v, nth_error inds q = Some z -> nth_error times q = Some v -> nth_error all (Z.to_nat z) = Some v) /\
    (forall z, (0 <= z <= m)%Z -> ~ In z inds -> nth_error all (Z.to_nat z) = Some (fadd t0 (fmul p (Fin (IZR z))))).
Proof. exact ttv_filled. Qed.
Print Assumptions C34_filled_in.
Example C34_example : exists o os, consts_ok ek /\ ttv_init ek ex_x = Ok o /\ ttv_system ek 2 o os ex_tts /\ is_vector 3 (vector 3 INR) /\
   (forall m, (m < 3)%nat -> aget (vector 3 INR) (at_time m) = Fin (INR m)).
Proof. exact ex_ttv. Qed.
(** the filled-in times need not follow the ephemeris (t0, ttv_period) fitted to
    the transit times, and need not even be increasing *)
Theorem C34_ephemeris_refuted : exists k x o, consts_ok k /\ ttv_init k x = Ok o /\
  tt_inds o = [[0; 3]%Z] /\ tt_times o = [[Fin 0; Fin 3]] /\ entry (o_t0 (tt_orbit o)) 0 = Fin 0 /\ entry (tt_period o) 0 = Fin 1 /\
  tt_all o = [[Fin 0; Fin 2; Fin 4; Fin 3]].
Proof. exact explicit_period. Qed.
Print Assumptions C34_ephemeris_refuted.

(** any labels: they are taken modulo the number of transits; of several times
    with the same place the last is kept; the constructor fails if no label is
    positive or zero, or if one lies too far below zero *)
Theorem C34_any_labels : forall k x o, ttv_init k x = Ok o -> forall i inds times,
  nth_error (tt_inds o) i = Some inds -> nth_error (tt_times o) i = Some times -> length inds = length times ->
  exists t0 p m all, tix (o_t0 (tt_orbit o)) i = Ok t0 /\ tix (o_period (tt_orbit o)) i = Ok p /\
    nth_error (tt_all o) i = Some all /\ In m inds /\ (0 <= m)%Z /\ (forall z, In z inds -> (- (m + 1) <= z <= m)%Z) /\ length all = S (Z.to_nat m) /\
    (forall e z v, nth_error inds e = Some z -> nth_error times e = Some v ->
       (forall e' z', (e < e')%nat -> nth_error inds e' = Some z' -> (z' mod (m + 1) <> z mod (m + 1))%Z) ->
       nth_error all (Z.to_nat (z mod (m + 1))) = Some v) /\
    (forall q, (0 <= q <= m)%Z -> (forall z, In z inds -> (z mod (m + 1) <> q)%Z) -> nth_error all (Z.to_nat q) = Some (fadd t0 (fmul p (Fin (IZR q))))).
Proof. exact ttv_any_labels. Qed.
Print Assumptions C34_any_labels.
(** so a transit numbered -1 loses its time *)
Theorem C34_negative_refuted : exists k x o, consts_ok k /\ ttv_init k x = Ok o /\
  tt_inds o = [[-1; 0; 1]%Z] /\ tt_times o = [[Fin 0; Fin 3; Fin 7]] /\ tt_all o = [[Fin 3; Fin 7]].
Proof. exact negative_label. Qed.
Print Assumptions C34_negative_refuted.

(** a single time is given to all the transits that are numbered *)
Theorem C34_single_time : forall k x o, ttv_init k x = Ok o -> forall i inds v,
  nth_error (tt_inds o) i = Some inds -> nth_error (tt_times o) i = Some [v] -> inds <> [] -> NoDup inds -> (forall z, In z inds -> (0 <= z)%Z) ->
  exists t0 p m all, tix (o_t0 (tt_orbit o)) i = Ok t0 /\ tix (o_period (tt_orbit o)) i = Ok p /\
    nth_error (tt_all o) i = Some all /\ In m inds /\ (forall z, In z inds -> (z <= m)%Z) /\ length all = S (Z.to_nat m) /\
    (forall z, In z inds -> nth_error all (Z.to_nat z) = Some v) /\
    (forall z, (0 <= z <= m)%Z -> ~ In z inds -> nth_error all (Z.to_nat z) = Some (fadd t0 (fmul p (Fin (IZR z))))).
Proof. exact ttv_single. Qed.
Print Assumptions C34_single_time.
(** so one time for two transits is not refused: both happen at that time *)
Theorem C34_count_refuted : exists k x o, consts_ok k /\ ttv_init k x = Ok o /\ tt_inds o = [[1; 2]%Z] /\ tt_times o = [[Fin 5]] /\
  exists t0, tt_all o = [[t0; Fin 5; Fin 5]].
Proof. exact single_time. Qed.
Print Assumptions C34_count_refuted.

(** ** C35 *)
Theorem C35_expected : forall mn mx ps ts, let l := compute_expected_transit_times mn mx ps ts in
  length l = Nat.min (length ps) (length ts) /\
  forall j P t0, nth_error ps j = Some P -> nth_error ts j = Some t0 -> 0 < P -> exists lj, nth_error l j = Some lj /\
    StronglySorted Rlt lj /\ forall t, In t lj <-> exists q : Z, t = t0 + IZR q * P /\ mn <= t < mx.
Proof. exact expected_all. Qed.
Print Assumptions C35_expected.
Example C35_example : nth_error [3; 5] 1 = Some 5 /\ nth_error [0; 1] 1 = Some 1 /\ 0 < 5.
Proof. repeat split. apply (IZR_lt 0 5). reflexivity. Qed.
(** a transit exactly at max_time is left out although max_time itself is allowed *)
Theorem C35_inclusive_refuted : exists mn mx P t0 q, 0 < P /\ mn <= t0 + IZR q * P <= mx /\
  compute_expected_transit_times mn mx [P] [t0] = [[]].
Proof. exact expected_end. Qed.
Print Assumptions C35_inclusive_refuted.
(** a period for the first planet only: the second is dropped *)
Theorem C35_zip_refuted : forall mn mx P t0 t1, length (compute_expected_transit_times mn mx [P] [t0; t1]) = 1%nat.
Proof. exact expected_zip. Qed.
Print Assumptions C35_zip_refuted.

(** ** C36 *)
Theorem C36_kepler_shape : forall k n N x xs os o t par b ld, consts_ok k -> system k n x xs os -> kep_init k x = Ok o -> is_vector N t -> opt_per_planet n par ->
  let v := pos k o b t par ld in
  ash (fst (fst v)) = Ok (squeezed [n; N]) /\ ash (snd (fst v)) = Ok (squeezed [n; N]) /\ ash (snd v) = Ok (squeezed [n; N]).
Proof. exact kepler_light_delay. Qed.
Print Assumptions C36_kepler_shape.
Example C36_example : exists os o,
  system ek 2 (ex_sys_args 2 ex_bs) (fun j => ex_b_args (ex_bs j)) os /\
  planet_args 2 (ex_sys_args 2 ex_bs) /\ kep_init ek (ex_sys_args 2 ex_bs) = Ok o /\ is_vector 3 (vector 3 INR) /\
  (forall j, (j < 2)%nat -> kep_init ek (args_at (at_planet j) (ex_sys_args 2 ex_bs)) = Ok (fin_orbit (os j))).
Proof. exact planets_example. Qed.
(** shapes list the last axis first *)
Theorem C36_ttv_light_delay_shape : forall k n N o os tts t par b, consts_ok k -> ttv_system k n o os tts -> is_vector N t ->
  let v := tpos k o b t par true in
  let s := if Nat.eqb n 1 then Ok (squeezed [N; N])
           else if Nat.eqb N 1 then Ok [n; n]
           else if Nat.eqb N n then Ok [n; n; n]
           else Err ShapeErr in
  ash (fst (fst v)) = s /\ ash (snd (fst v)) = s /\ ash (snd v) = s.
Proof. exact ttv_light_delay. Qed.
Print Assumptions C36_ttv_light_delay_shape.
Example C36_ttv_example : exists o os, consts_ok ek /\ ttv_init ek ex_x = Ok o /\ ttv_system ek 2 o os ex_tts /\ is_vector 3 (vector 3 INR) /\
   (forall m, (m < 3)%nat -> aget (vector 3 INR) (at_time m) = Fin (INR m)).
Proof. exact ex_ttv. Qed.

(** ** C37 *)
Theorem C37_neither : forall k inds kw, ttv_init k (targs_of None None inds kw) = Err ValueError.
Proof. reflexivity. Qed.
Print Assumptions C37_neither.
(** a planet for which no transit is given *)
Theorem C37_no_transits : forall k ttvs ttvs' kw o, ttv_init k (targs_of (Some ttvs') None None kw) = Ok o -> length ttvs = length ttvs' -> In [] ttvs ->
  ttv_init k (targs_of (Some ttvs) None None kw) = Err ValueError.
Proof. exact ttv_no_transits. Qed.
Print Assumptions C37_no_transits.
Example C37_no_transits_example : exists o, ttv_init ek (targs_of (Some [[Fin 0; Fin (1 / 2); Fin 0]; [Fin 1; Fin 0]]) None None (ex_tkw 2 ex_bs)) = Ok o /\
  ttv_init ek (targs_of (Some [[Fin 0; Fin (1 / 2); Fin 0]; []]) None None (ex_tkw 2 ex_bs)) = Err ValueError.
Proof. exact no_transits_example. Qed.
Theorem C37_both : forall k ttvs times inds kw,
  ttv_init k (targs_of (Some ttvs) (Some times) inds kw) = ttv_init k (targs_of (Some ttvs) None inds kw).
Proof. reflexivity. Qed.
Print Assumptions C37_both.
Theorem C37_delta_log_period : forall k x o times d i P dv, ttv_init k x = Ok o -> ta_ttvs x = None -> ta_times x = Some times ->
  lookup "period" (ta_kw x) = None -> lookup "delta_log_period" (ta_kw x) = Some (KNum d) ->
  entry (tt_period o) i = Fin P -> 0 < P -> entry (qv d) i = Fin dv ->
  entry (o_period (tt_orbit o)) i = Fin (P * exp dv).
Proof. exact ttv_delta. Qed.
Print Assumptions C37_delta_log_period.
Example C37_example : exists o, ttv_init ek ex_xd = Ok o /\ entry (tt_period o) 0 = Fin 3.
Proof. exact ex_delta. Qed.
Theorem C37_delta_ignored : forall k ttvs times inds l l' v, (ttvs <> None \/ lookup "period" (l ++ l') <> None) ->
  ttv_init k (targs_of ttvs times inds (l ++ ("delta_log_period"%string, v) :: l')) = ttv_init k (targs_of ttvs times inds (l ++ l')).
Proof. exact ttv_delta_ignored. Qed.
Print Assumptions C37_delta_ignored.
(** the primary/secondary swap used by SecondaryEclipseLightCurve *)
Theorem C37_flip_refuted : forall k o r, ttv_flip k o r = Err ValueError.
Proof. reflexivity. Qed.
Print Assumptions C37_flip_refuted.
(** so a TTV orbit has no flipped orbit at all *)
Theorem C23_ttv_refuted : forall k o r, ttv_flip k o r = Err ValueError.
Proof. exact C37_flip_refuted. Qed.
Print Assumptions C23_ttv_refuted.
