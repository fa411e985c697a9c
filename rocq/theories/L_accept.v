(** * C01: the complete table of accepted argument combinations *)
From Coq Require Import Reals Bool List.
From Verif Require Import Num CoreOps Inst M_units M_kepler Spec_orbit Spec_params L_params.

Section Gen.
Context {T B : Type} {N : Num T B}.
Variable k : consts.
Lemma times_ok (x : kargs T) p M n : given (ka_t0 x) && given (ka_tper x) = false -> exists t, kep_times x p M n = Ok t.
Proof. unfold kep_times. destruct (ka_t0 x), (ka_tper x); cbn; intro H; try discriminate; eexists; reflexivity. Qed.
Lemma times_bad (x : kargs T) p M n : given (ka_t0 x) && given (ka_tper x) = true -> kep_times x p M n = Err ValueError.
Proof. unfold kep_times. destruct (ka_t0 x), (ka_tper x); cbn; intro H; try discriminate; reflexivity. Qed.
Definition omega_good (x : kargs T) : bool := negb (given (ka_ecc x)) ||
        (if given (ka_omega x) then negb (given (ka_sin_omega x) && given (ka_cos_omega x))
         else given (ka_sin_omega x) && given (ka_cos_omega x)).
Lemma omega_ok (x : kargs T) : omega_good x = true -> exists e, kep_omega x = Ok e /\ (e = None <-> ka_ecc x = None).
Proof.
  unfold omega_good, kep_omega. destruct (ka_ecc x), (ka_omega x), (ka_sin_omega x), (ka_cos_omega x); cbn; intro H; try discriminate;
  eexists; (split; [reflexivity|]); split; intro; (discriminate || reflexivity).
Qed.
Lemma omega_bad (x : kargs T) : omega_good x = false -> kep_omega x = Err ValueError.
Proof. unfold omega_good, kep_omega. destruct (ka_ecc x), (ka_omega x), (ka_sin_omega x), (ka_cos_omega x); cbn; intro H; try discriminate; reflexivity. Qed.
Lemma incl_ok (x : kargs T) dur ed f d a p ap r : at_most_one (given (ka_b x)) (given (ka_incl x)) (given dur) = true ->
  convertible dur (u_day k) -> (dur <> None -> ed <> None) -> exists o, kep_incl k x dur ed f d a p ap r = Ok o.
Proof.
  unfold kep_incl. intros H C E. destruct (ka_b x), (ka_incl x), dur; cbn in *; try discriminate; try (eexists; reflexivity).
  destruct ed; [|exfalso; apply E; congruence]. destruct C as [v ->]. eexists; reflexivity.
Qed.
Lemma incl_bad (x : kargs T) dur ed f d a p ap r : at_most_one (given (ka_b x)) (given (ka_incl x)) (given dur) = false ->
  kep_incl k x dur ed f d a p ap r = Err ValueError.
Proof. unfold kep_incl. intros H. destruct (ka_b x), (ka_incl x), dur; cbn in *; try discriminate; reflexivity. Qed.

(** the common tail of the constructor *)
Lemma tail_ok (x : kargs T) mp rho a r dur g : kep_units x = Ok (mp, rho) -> kep_duration x = Ok (a, r, dur, g) ->
  match consistent_inputs k a (ka_period x) rho r (ka_m_star x) mp with
  | Err e => kep_init k x = Err e
  | Ok _ =>
      convertible dur (u_day k) -> (dur <> None -> ka_ecc x <> None) ->
      if omega_good x && at_most_one (given (ka_b x)) (given (ka_incl x)) (given dur) && negb (given (ka_t0 x) && given (ka_tper x))
      then exists o, kep_init k x = Ok o else kep_init k x = Err ValueError
  end.
Proof.
  intros U D. unfold kep_init. rewrite U. cbn [rbind]. rewrite D. cbn [rbind].
  destruct (consistent_inputs _ _ _ _ _ _ _) as [[[[[[A P] RHO] RS] MS] MP]|e]; [|reflexivity]. cbn [rbind]. intros C E.
  destruct (omega_good x) eqn:W; cbn [andb]; [|rewrite (omega_bad x W); reflexivity].
  destruct (omega_ok x W) as (ed & -> & Q). cbn [rbind].
  destruct (at_most_one _ _ _) eqn:M; cbn [andb]; [|rewrite (incl_bad x dur _ _ _ _ _ _ _ M); reflexivity].
  match goal with |- context [kep_incl k x dur ed ?f ?d ?a ?p ?ap ?r] => destruct (incl_ok x dur ed f d a p ap r M C) as [[[[b ci] i] da] ->] end; [intros H1 H2; apply (E H1), Q, H2|]. cbn [rbind].
  destruct (given (ka_t0 x) && given (ka_tper x)) eqn:TT; cbn [negb].
  - match goal with |- context [kep_times x ?p ?M ?n] => rewrite (times_bad x p M n TT) end. reflexivity.
  - match goal with |- context [kep_times x ?p ?M ?n] => destruct (times_ok x p M n TT) as [[t0 tp] ->] end. eexists; reflexivity.
Qed.

Theorem accept_complete (x : kargs T) :
  ka_m_planet_units x = None -> ka_rho_star_units x = None -> units_ok k x -> convertible (ka_duration x) (u_day k) ->
  (accepted x = true -> exists o, kep_init k x = Ok o) /\
  (accepted x = false ->
     kep_init k x = Err (if circular_with_duration x && given (ka_b x) && negb (given (ka_period x)) then TypeErr else ValueError)).
Proof.
  intros U1 U2 [Ha Hp Hr Hm Hrho Hmp] Hd.
  assert (U : kep_units x = Ok (ka_m_planet x, ka_rho_star x)) by (unfold kep_units; rewrite U1, U2; reflexivity).
  unfold accepted. fold (omega_good x). destruct (circular_with_duration x) eqn:CD.
  - unfold circular_with_duration in CD. destruct (ka_ecc x) eqn:He; [discriminate|]. destruct (ka_duration x) as [dq|] eqn:Hdu; [|discriminate]. cbn [given andb].
    destruct (ka_b x) as [b|] eqn:Hb; cbn [given andb].
    2:{ rewrite andb_false_r. split; [discriminate|]. intros _. unfold kep_init. rewrite U. cbn [rbind]. unfold kep_duration. rewrite He, Hdu, Hb. reflexivity. }
    destruct (ka_period x) as [p|] eqn:Hpe; cbn [given andb negb].
    2:{ rewrite andb_false_r. split; [discriminate|]. intros _. unfold kep_init. rewrite U. cbn [rbind]. unfold kep_duration. rewrite He, Hdu, Hb, Hpe. reflexivity. }
    destruct (get_aor (qv dq) (qv p) b (ka_ror x)) as [aor grad] eqn:G.
    set (rs := match ka_r_star x with None => plain (nlit 1) | Some r => r end).
    assert (D : kep_duration x = Ok (Some (plain (nmul (qv rs) aor)), Some rs, None, Some grad)).
    { unfold kep_duration. rewrite He, Hdu, Hb, Hpe. fold rs. rewrite G. reflexivity. }
    pose proof (tail_ok x _ _ _ _ _ _ U D) as TL. rewrite Hpe in TL.
    assert (WG : omega_good x = true) by (unfold omega_good; rewrite He; reflexivity). rewrite WG, Hb in TL. cbn [andb given] in TL.
    assert (Crs : convertible (Some rs) (u_R_sun k)). { unfold rs. destruct (ka_r_star x); [exact Hr|]. eexists. reflexivity. }
    destruct (negb (given (ka_rho_star x)) && negb (given (ka_m_star x))) eqn:LG.
    + destruct (ci_accept k (Some (plain (nmul (qv rs) aor))) (Some p) (ka_rho_star x) (Some rs) (ka_m_star x) (ka_m_planet x)) as [out E]; auto; try exact LG; try (eexists; reflexivity).
      rewrite E in TL. specialize (TL I (fun H => match H eq_refl with end)). revert TL. destruct (ka_rho_star x), (ka_m_star x); try discriminate. destruct (ka_incl x), (ka_t0 x), (ka_tper x); cbn; intro TL; (split; intro H; try discriminate H; try exact TL).
    + rewrite (ci_reject k (Some (plain (nmul (qv rs) aor))) (Some p)) in TL; auto; try exact LG; try (eexists; reflexivity).
      split; [|intros _; exact TL]. destruct (ka_rho_star x), (ka_m_star x); try discriminate LG; cbn; rewrite ?andb_false_r; discriminate.
  - cbn [andb]. assert (D : kep_duration x = Ok (ka_a x, ka_r_star x, ka_duration x, None)).
    { unfold kep_duration. unfold circular_with_duration in CD. destruct (ka_ecc x), (ka_duration x); try discriminate CD; reflexivity. }
    pose proof (tail_ok x _ _ _ _ _ _ U D) as TL.
    assert (E : ka_duration x <> None -> ka_ecc x <> None). { unfold circular_with_duration in CD. destruct (ka_ecc x), (ka_duration x); try discriminate CD; congruence. }
    destruct (legal_args x) eqn:LG.
    + destruct (ci_accept k (ka_a x) (ka_period x) (ka_rho_star x) (ka_r_star x) (ka_m_star x) (ka_m_planet x)) as [out EE]; auto. rewrite EE in TL. specialize (TL Hd E). revert TL.
      destruct (omega_good x), (at_most_one _ _ _), (negb _); cbn; intro TL; (split; intro H; try discriminate H; try exact TL).
    + rewrite (ci_reject k (ka_a x)) in TL; auto. split; [rewrite !andb_false_r || (cbn; rewrite ?andb_false_r); discriminate|intros _; exact TL].
Qed.
End Gen.
Theorem incl_errors (T B : Type) (N : Num T B) k (x : kargs T) :
  ka_m_planet_units x = None -> ka_rho_star_units x = None -> units_ok k x -> convertible (ka_duration x) (u_day k) -> given (ka_period x) = true ->
  (given (ka_b x) && given (ka_incl x) = true \/ given (ka_ecc x) && given (ka_duration x) && (given (ka_b x) || given (ka_incl x)) = true) ->
  kep_init k x = Err ValueError.
Proof.
  intros U1 U2 U D P H. destruct (accept_complete k x U1 U2 U D) as [_ R].
  assert (A : accepted x = false).
  { unfold accepted, circular_with_duration. destruct (ka_ecc x), (ka_duration x), (ka_b x), (ka_incl x); cbn in *; try (destruct H; discriminate); rewrite ?andb_false_r; reflexivity. }
  rewrite (R A), P. rewrite andb_false_r. reflexivity.
Qed.
