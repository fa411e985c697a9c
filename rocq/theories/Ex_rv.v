(** * Concrete radial-velocity data *)
From Coq Require Import Reals List Bool Arith ZArith Lia Lra.
From Verif Require Import Num CoreOps Inst M_units M_kepler M_rv Spec_orbit Spec_rv L_orbit Ex_orbit.
Import ListNotations.
Open Scope R_scope.

(** km/s *)
Definition u_kmps (k : consts) : unit_t := {| udim := (0, 1, -1)%Z; uscale := 1000 * s_mps k |}.
(** two planets, periods 4 d and 2 d, transits at 0 and 1/2, observed on four days *)
Definition two_p : list R := [4; 2].
Definition two_t0 : list R := [0; 1 / 2].
Definition two_ts : list R := [0; 1; 2; 3].
Definition two_vs (K1 K2 c : R) : list R := map (transit_model two_p two_t0 [K1; K2] c) two_ts.

Lemma sin_5PI2 : sin (5 * (PI / 2)) = 1.
Proof. replace (5 * (PI / 2)) with (PI / 2 + 2 * PI) by field. rewrite sin_plus, sin_2PI, cos_2PI, sin_PI2. ring. Qed.
Lemma sin_3PI2' : sin (3 * (PI / 2)) = -1. Proof. exact sin_3PI2. Qed.
Lemma two_model K1 K2 c : two_vs K1 K2 c = [K2 + c; - K1 - K2 + c; K2 + c; K1 - K2 + c].
Proof.
  unfold two_vs, two_ts, two_p, two_t0. cbn [map transit_model]. unfold transit_signal.
  replace (2 * PI * (0 - 0) / 4) with 0 by field. replace (2 * PI * (0 - 1 / 2) / 2) with (- (PI / 2)) by field.
  replace (2 * PI * (1 - 0) / 4) with (PI / 2) by field. replace (2 * PI * (1 - 1 / 2) / 2) with (PI / 2) by field.
  replace (2 * PI * (2 - 0) / 4) with PI by field. replace (2 * PI * (2 - 1 / 2) / 2) with (3 * (PI / 2)) by field.
  replace (2 * PI * (3 - 0) / 4) with (3 * (PI / 2)) by field. replace (2 * PI * (3 - 1 / 2) / 2) with (5 * (PI / 2)) by field.
  rewrite sin_0, sin_neg, sin_PI2, sin_PI, sin_3PI2', sin_5PI2. repeat (apply (f_equal2 cons); [ring|]); reflexivity.
Qed.
Lemma two_identifiable : transit_identifiable two_p two_t0 two_ts.
Proof.
  intros Ks c L H. destruct Ks as [|K1 [|K2 [|]]]; try discriminate.
  assert (M := two_model K1 K2 c). unfold two_vs, two_ts in M. cbn [map] in M. injection M as M1 M2 M3 M4.
  assert (H1 := H 0 ltac:(left; reflexivity)). assert (H2 := H 1 ltac:(right; left; reflexivity)). assert (H3 := H 3 ltac:(right; right; right; left; reflexivity)).
  assert (H1' := eq_trans (eq_sym M1) H1). assert (H2' := eq_trans (eq_sym M2) H2). assert (H3' := eq_trans (eq_sym M4) H3). split; [lra|]. intros K [<-|[<-|[]]]; lra.
Qed.
Lemma two_data K1 K2 c : rv_data ek (plain two_ts) (Q (map (fun v => v / 1000) (two_vs K1 K2 c)) (Some (u_kmps ek))) (Some (plain [1; 2; 3; 1 / 2])) two_ts (two_vs K1 K2 c) [1; 2; 3; 1 / 2].
Proof.
  constructor.
  - reflexivity.
  - cbn [measures qu qv]. split; [reflexivity|]. split; [cbn; lra|]. rewrite map_map. apply map_ext. intro v. unfold u_kmps. cbn [uscale u_mps]. field.
  - reflexivity.
  - discriminate.
  - exists (Some [1; 2; 3; 1 / 2]). split; [reflexivity|]. split; [repeat constructor; lra|]. left. split; reflexivity.
Qed.
Lemma two_short : estimate_semi_amplitude ek (plain two_p) (plain two_ts) (plain (two_vs 1 1 0)) None (Some (plain [0])) = Err IndexErr.
Proof. reflexivity. Qed.

(** one period without a transit time, observed at 0, 5/2 and 5 d *)
Definition one_ts : list R := [0; 5 / 2; 5].
Lemma one_model A B c : map (phase_model [10] [A] [B] c) one_ts = [B + c; A + c; - B + c].
Proof.
  unfold one_ts. cbn [map phase_model]. replace (2 * PI * 0 / 10) with 0 by field. replace (2 * PI * (5 / 2) / 10) with (PI / 2) by field. replace (2 * PI * 5 / 10) with PI by field.
  rewrite sin_0, cos_0, sin_PI2, cos_PI2, sin_PI, cos_PI. repeat (apply (f_equal2 cons); [ring|]); reflexivity.
Qed.
Lemma one_identifiable : phase_identifiable [10] one_ts.
Proof.
  intros As Bs c LA LB H. destruct As as [|A [|]], Bs as [|B [|]]; try discriminate.
  assert (M := one_model A B c). unfold one_ts in M. cbn [map] in M. injection M as M1 M2 M3.
  assert (H1 := H 0 ltac:(left; reflexivity)). assert (H2 := H (5 / 2) ltac:(right; left; reflexivity)). assert (H3 := H 5 ltac:(right; right; left; reflexivity)).
  assert (H1' := eq_trans (eq_sym M1) H1). assert (H2' := eq_trans (eq_sym M2) H2). assert (H3' := eq_trans (eq_sym M3) H3). split; [lra|]. split; [intros K [<-|[]]|intros K [<-|[]]]; lra.
Qed.
(** data without uncertainties *)
Lemma plain_data ts vs : length vs = length ts -> rv_data ek (plain ts) (plain vs) None ts vs (repeat 1 (length ts)).
Proof. intro L. constructor; try reflexivity; [exact L|]. exists None. split; [exact I|reflexivity]. Qed.
(** a Keplerian orbit of 10 d with a transit at 2 d, seen at 2 d and 9/2 d *)
Lemma orbit_identifiable : transit_identifiable [10] [2] [2; 9 / 2].
Proof.
  intros Ks c L H. destruct Ks as [|K [|]]; try discriminate.
  assert (H1 := H 2 ltac:(left; reflexivity)). assert (H2 := H (9 / 2) ltac:(right; left; reflexivity)). cbn [transit_model] in H1, H2. unfold transit_signal in H1, H2.
  replace (2 * PI * (2 - 2) / 10) with 0 in H1 by field. replace (2 * PI * (9 / 2 - 2) / 10) with (PI / 2) in H2 by field. rewrite sin_0 in H1. rewrite sin_PI2 in H2.
  split; [lra|]. intros K' [<-|[]]; lra.
Qed.
Lemma circ_rv_example : exists o, circular_orbit ek o /\ o_period o = 10 /\ o_t0 o = 2 /\ 0 < o_m_planet o /\ o_sin_incl o = 1.
Proof. destruct ex_circ as (o & H & Hp & M & _ & E & _ & P & T & _ & _ & S). exists o. split; [split; [eexists; exact H|split; assumption]|]. tauto. Qed.
