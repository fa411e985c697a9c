(** * A concrete box least squares implementation *)
From Coq Require Import Reals List Bool Arith ZArith String Lia Lra Sorted.
From Verif Require Import Num CoreOps Inst M_kwargs M_tensor M_dist M_peaks M_acorr M_bls Spec_peaks Spec_acorr Spec_bls Spec_ecc L_real L_params3 L_dist1 L_ecc1.
Import ListNotations.
Local Notation length := List.length.
Open Scope R_scope.

Definition ex_known : list string := ["minimum_period"; "maximum_period"; "minimum_n_transit"; "frequency_factor"; "objective"; "method"; "oversample"]%string.
Definition ex_keys (kw : dict) : bool := forallb (fun p => existsb (String.eqb (fst p)) ex_known) kw.
Definition num_kw (k : string) (kw : dict) : option R :=
  match dget k kw with Some (PNum a) => match aget a (fun _ => O) with Fin r => Some r | _ => None end | _ => None end.
(** five periods; the depth array records the minimum_period received *)
Definition ex_pg (lo : R) : pgram :=
  {| pg_period := [1; 2; 3; 4; 5]; pg_power := map Fin [1; 3; 2; 1; 2]; pg_transit_time := map Fin [0; 0; 0; 0; 0];
     pg_objective := "likelihood"; pg_other := [("depth"%string, map Fin [lo; lo; lo; lo; lo])] |}.
(** the number of trial periods is 1 + floor(100 / frequency_factor) *)
Definition ex_astropy : astropy := {|
  autoperiod := fun _ _ _ _ kw =>
    if ex_keys kw then
      match num_kw "frequency_factor" kw with
      | Some ff => if Rltb 0 ff then Ok (map INR (seq 1 (1 + Z.to_nat (Zfloor (100 / ff))))) else Err ValueError
      | None => Err TypeErr
      end
    else Err TypeErr;
  autopower := fun _ _ _ _ kw =>
    if ex_keys kw then Ok (ex_pg (match num_kw "minimum_period" kw with Some r => r | None => 0 end)) else Err TypeErr |}.

Lemma dget_in k v kw : In (k, v) kw -> dget k kw <> None.
Proof. induction kw as [|[k' v'] kw IH]; intros []; rewrite dget_cons; destruct (String.eqb_spec k k'); try discriminate; [congruence|apply IH; assumption]. Qed.
Lemma dget_some_in k v kw : dget k kw = Some v -> In (k, v) kw.
Proof. induction kw as [|[k' v'] kw IH]; [discriminate|]. rewrite dget_cons. destruct (String.eqb_spec k k'); [intro E; injection E as <-; subst; left; reflexivity|]. intro. right. apply IH. assumption. Qed.
Lemma ex_keys_iff kw : ex_keys kw = true <-> forall k, dget k kw <> None -> In k ex_known.
Proof.
  unfold ex_keys. rewrite forallb_forall. split.
  - intros H k K. destruct (dget k kw) as [v|] eqn:E; [|contradiction]. apply dget_some_in in E. specialize (H _ E). apply existsb_exists in H. destruct H as (k' & I & Q). apply String.eqb_eq in Q. cbn in Q. subst. exact I.
  - intros H [k v] I. apply existsb_exists. exists k. split; [apply H; apply (dget_in k v); exact I|apply String.eqb_refl].
Qed.
Lemma ex_rejects : rejects ex_astropy "minimim_period".
Proof.
  intros t y yerr dur kw H. cbn [autoperiod autopower ex_astropy]. assert (E : ex_keys kw = false); [|rewrite E; split; reflexivity].
  apply Bool.not_true_is_false. intro Q. rewrite ex_keys_iff in Q. specialize (Q _ H). cbn in Q. intuition discriminate.
Qed.
Lemma ex_pg_good lo : good_pgram (ex_pg lo) [1; 3; 2; 1; 2].
Proof.
  constructor; try reflexivity.
  - cbn. repeat (constructor; [lra|]). constructor.
  - left. cbn. repeat (constructor; [|repeat (constructor; [lra|]); constructor]). constructor.
  - intros k v [E|[]]. injection E as <- <-. reflexivity.
Qed.
Lemma ex_returns_good : returns_good ex_astropy.
Proof.
  intros t y yerr dur kw pg E. cbn [autopower ex_astropy] in E. destruct (ex_keys kw); [|discriminate]. apply Ok_inj in E. subst pg. exists [1; 3; 2; 1; 2]. apply ex_pg_good.
Qed.
Definition ex_known_kw (kw : dict) : Prop := forall k, dget k kw <> None -> In k ex_known.
Lemma ex_shrinks t y yerr dur lo hi kw : ex_known_kw kw -> grid_shrinks ex_astropy t y yerr dur lo hi kw.
Proof.
  intro K. exists 100. intros ff kw' P [F O]. cbn [autoperiod ex_astropy]. assert (E : ex_keys kw' = true).
  { apply ex_keys_iff. intros k H. destruct (in_dec string_dec k (map fst [("minimum_period"%string, lo); ("maximum_period"%string, hi); ("frequency_factor"%string, pfloat ff)])) as [I|I].
    - cbn in I. cbn. intuition.
    - apply K. rewrite <- (O k I). exact H. }
  rewrite E. assert (N : num_kw "frequency_factor" kw' = Some ff). { unfold num_kw. rewrite (F "frequency_factor"%string (pfloat ff)) by (right; right; left; reflexivity). reflexivity. }
  rewrite N. unfold Rltb. destruct (Rlt_dec 0 ff); [|contradiction]. eexists. split; [reflexivity|]. rewrite map_length, seq_length, plus_INR. cbn [INR]. apply Rplus_le_compat_l.
  assert (0 < 100 / ff) by (apply Rdiv_lt_0_compat; lra). assert (S0 := Zfloor_spec (100 / ff)). assert (0 <= Zfloor (100 / ff))%Z by (assert (-1 < Zfloor (100 / ff))%Z by (apply lt_IZR; lra); lia).
  rewrite INR_IZR_INZ, Z2Nat.id by assumption. lra.
Qed.
Lemma ex_accepts t y yerr dur kw : ex_known_kw kw -> accepts ex_astropy t y yerr dur kw.
Proof.
  intros K kw' H. cbn [autopower ex_astropy]. assert (E : ex_keys kw' = true); [|rewrite E; eexists; reflexivity].
  apply ex_keys_iff. intros k Q. destruct (H k Q) as [I|I]; [apply K; exact I|]. cbn in I. cbn. intuition.
Qed.
