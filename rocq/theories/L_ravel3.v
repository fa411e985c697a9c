(** * Arrays of times of any shape: the statements *)
From Coq Require Import Reals Lra Lia List Bool Arith ZArith.
From Verif Require Import Num CoreOps Inst CoreFlux M_units M_kepler M_fin M_tensor M_simple M_ttv M_limbdark Spec_orbit Spec_params Spec_array Spec_simple Spec_ttv Spec_light Spec_undef Spec_ravel
  L_array L_ravel L_ravel2.
Import ListNotations.
Local Notation length := List.length.
Open Scope R_scope.

Lemma ravel_motion : forall k n x o b par ld, planet_args n x -> kep_init k x = Ok o -> opt_per_planet n par ->
  any_shape3 n (fun t => pos k o b t par ld) /\ any_shape3 n (fun t => vel o b t) /\ any_shape3 n (fun t => acc o b t) /\
  any_shape n (fun t => fst (get_relative_angles k o (kep_warp o) t par ld)) /\ any_shape n (fun t => snd (get_relative_angles k o (kep_warp o) t par ld)).
Proof.
  intros k n x o b par ld Px Hx Hp. split; [apply (pos_any k n x o Px Hx b par ld Hp)|]. split; [apply (vel_any k n x o Px Hx)|]. split; [apply (acc_any k n x o Px Hx)|].
  apply (angles_any k n x o Px Hx par ld Hp).
Qed.
Lemma ravel_rv : forall k n x o K u s t s' t' X, planet_args n x -> kep_init k x = Ok o -> opt_per_planet n K -> same_list s t s' t' ->
  get_radial_velocity k o (kep_warp o) t K u = Ok X ->
  exists X', get_radial_velocity k o (kep_warp o) t' K u = Ok X' /\ ash X = Ok (squeezed (n :: s)) /\ ash X' = Ok (squeezed (n :: s')) /\
    forall q, (q < n * prod s)%nat -> flat X q = flat X' q.
Proof. intros k n x o K u s t s' t' X Px Hx HK H E. exact (rv_any k n x o Px Hx K u s t s' t' X HK H E). Qed.
Lemma ravel_simple : forall n x xs, simple_system n x xs ->
  (forall t, exists v, simple_relative_position (simple_init x) t false = Ok v) /\
  any_shape3 n (fun t => match simple_relative_position (simple_init x) t false with Ok v => v | Err _ => (t, t, t) end).
Proof. intros n x xs sys. split; [intro t; eexists; reflexivity|]. exact (simple_any n x xs sys). Qed.
Lemma ravel_ttv : forall k n o os tts b, consts_ok k -> ttv_system k n o os tts ->
  any_shape3 n (fun t => tpos k o b t None false) /\ any_shape3 n (fun t => tvel o b t).
Proof. intros k n o os tts b kok sys. split; [apply (ttv_pos_any k n o os tts kok sys)|apply (ttv_vel_any k n o os tts kok sys)]. Qed.
Lemma ravel_curve_kepler : forall k n x o l r sr use ld cp, planet_args n x -> kep_init k x = Ok o -> ash r = Ok sr -> prod sr = n -> masks use ld = false ->
  any_shape_curve n (fun t e osam order => get_light_curve l (Some (kep_api k (lift_cp cp) o)) (Some r) (Some t) e osam order use ld).
Proof. intros k n x o l r sr use ld cp Px Hx Sr Pr Hu. exact (kepler_curve_any k n x o l r sr use ld (lift_cp cp) Px Hx Sr Pr Hu). Qed.
Lemma ravel_curve_others : forall l r sr,
  (forall n x xs, simple_system n x xs -> (forall j, (j < n)%nat -> simple_ok (xs j)) -> ash r = Ok sr -> prod sr = n ->
    any_shape_curve n (fun t e osam order => get_light_curve l (Some (simple_api (simple_init x))) (Some r) (Some t) e osam order (Some false) false)) /\
  (forall k n o os tts cp, consts_ok k -> ttv_system k n o os tts -> ash r = Ok sr -> prod sr = n ->
    any_shape_curve n (fun t e osam order => get_light_curve l (Some (ttv_api k (lift_cp cp) o)) (Some r) (Some t) e osam order (Some false) false)).
Proof.
  intros l r sr. split.
  - intros n x xs sys ok Sr Pr. exact (simple_curve_any n x xs l r sr sys ok Sr Pr).
  - intros k n o os tts cp kok sys Sr Pr. exact (ttv_curve_any k n o os tts l r sr (lift_cp cp) kok sys Sr Pr).
Qed.
Lemma ravel_in_transit : forall n s t e, ash t = Ok s -> length s <> 1%nat -> opt_per_planet n e ->
  (forall k x o cp r, planet_args n x -> kep_init k x = Ok o -> per_planet n r -> kep_in_transit o (kep_warp o) (lift_cp cp) t r e false = Err IndexErr) /\
  (forall k o os tts cp r, consts_ok k -> ttv_system k n o os tts -> per_planet n r -> kep_in_transit (tt_orbit o) (ttv_warp o) (lift_cp cp) t r e false = Err IndexErr) /\
  (forall x xs r, simple_system n x xs -> s <> [] -> opt_per_planet n r -> simple_in_transit (simple_init x) t r e false = Err IndexErr).
Proof.
  intros n s t e Et Hs He. split; [|split].
  - intros k x o cp r Px Hx Hr. exact (kepler_axes k n x o cp s t r e Px Hx Et Hs Hr He).
  - intros k o os tts cp r kok sys Hr. exact (ttv_axes k n o os tts cp s t r e kok sys Et Hs Hr He).
  - intros x xs r sys H0 Hr. apply (simple_axes n x xs s t r e sys Et); [|exact Hr|exact He]. destruct s as [|d [|d' s]]; cbn in *; [contradiction|lia|lia].
Qed.
Lemma ravel_default : forall l n s t e r sr osam order use, ash t = Ok s -> length s <> 1%nat -> opt_per_planet n e -> ash r = Ok sr -> prod sr = n -> masks use false = true ->
  (forall k x o cp, planet_args n x -> kep_init k x = Ok o -> get_light_curve l (Some (kep_api k (lift_cp cp) o)) (Some r) (Some t) e osam order use false = Err IndexErr) /\
  (forall k o os tts cp, consts_ok k -> ttv_system k n o os tts -> get_light_curve l (Some (ttv_api k (lift_cp cp) o)) (Some r) (Some t) e osam order use false = Err IndexErr) /\
  (forall x xs, simple_system n x xs -> s <> [] -> get_light_curve l (Some (simple_api (simple_init x))) (Some r) (Some t) e osam order use false = Err IndexErr).
Proof.
  intros l n s t e r sr osam order use Et Hs He Sr Pr Hu. assert (Hr := rows_pp n r sr Sr Pr). destruct (ravel_in_transit n s t e Et Hs He) as (H1 & H2 & H3). split; [|split].
  - intros k x o cp Px Hx. apply masked_axes; [exact Hu|]. exact (H1 k x o cp _ Px Hx Hr).
  - intros k o os tts cp kok sys. apply masked_axes; [exact Hu|]. exact (H2 k o os tts cp _ kok sys Hr).
  - intros x xs sys H0. apply masked_axes; [exact Hu|]. exact (H3 x xs (Some _) sys H0 Hr).
Qed.
