(** * Units of the radial-velocity estimators, linearity, minimum masses *)
From Coq Require Import Reals List Bool Arith ZArith Lia Lra.
From Verif Require Import Num CoreOps Inst M_units M_kepler M_ttv M_rv Spec_orbit Spec_rv L_orbit L_motion CoreLin L_lin L_rv1 L_rv2 L_rv3 L_rv4.
Import ListNotations.
Open Scope R_scope.

Lemma plain_value l u : quantity_value (plain l) u = Ok l. Proof. reflexivity. Qed.
Theorem est_units : forall k periods x y yerr t0s P X Y E T0, consts_ok k ->
  measures periods (u_day k) P -> measures x (u_day k) X -> measures y (u_mps k) Y -> opt_measures yerr (u_mps k) E -> opt_measures t0s (u_day k) T0 ->
  match E with None => qu y = None | Some e => List.Forall (fun s => s <> 0) e end ->
  estimate_semi_amplitude k periods x y yerr t0s =
  estimate_semi_amplitude k (plain P) (plain X) (plain Y) (option_map plain E) (option_map plain T0).
Proof.
  intros k periods x y yerr t0s P X Y E T0 OK MP MX MY ME MT HE. unfold estimate_semi_amplitude.
  assert (OD : 0 < uscale (u_day k)) by exact (ok_d _ OK). assert (OM : 0 < uscale (u_mps k)) by exact (ok_mps _ OK).
  rewrite (measures_value _ _ _ OD MP), (measures_value _ _ _ OD MX), (measures_value _ _ _ OM MY), !plain_value. cbn [rbind].
  assert (ET : match t0s with None => Ok None | Some t => v <- quantity_value t (u_day k) ;; Ok (Some v) end = Ok T0).
  { destruct t0s as [q|], T0 as [l|]; try contradiction; [cbn in MT; rewrite (measures_value _ _ _ OD MT); reflexivity|reflexivity]. }
  assert (ET' : match option_map plain T0 with None => Ok None | Some t => v <- quantity_value t (u_day k) ;; Ok (Some v) end = Ok T0) by (destruct T0; reflexivity).
  rewrite ET, ET'. cbn [rbind]. 
  assert (EV : quantity_value match yerr with
              | None => Q (map (fun _ => 1) (qv y)) (qu y)
              | Some e => Q (map (fun z => 1 / (z * z)) (qv e)) (option_map unit_inv_sq (qu e))
              end (u_ivar k) =
            quantity_value match option_map plain E with
              | None => Q (map (fun _ => 1) (qv (plain Y))) (qu (plain Y))
              | Some e => Q (map (fun z => 1 / (z * z)) (qv e)) (option_map unit_inv_sq (qu e))
              end (u_ivar k)).
  { destruct yerr as [q|], E as [e|]; try contradiction; cbn [option_map].
    - rewrite (measures_ivar k q e OM HE ME). reflexivity.
    - unfold measures in MY. rewrite HE in MY. rewrite HE, MY. reflexivity. }
  rewrite EV. reflexivity.
Qed.
Lemma quantity_res q u : (exists l, quantity_value q u = Ok l) \/ quantity_value q u = Err UnitErr.
Proof. unfold quantity_value, uto. destruct (qu q); [|left; eexists; reflexivity]. destruct (dim_eqb _ _); [left; eexists; reflexivity|right; reflexivity]. Qed.
Lemma quantity_bad q u : incompatible q u -> quantity_value q u = Err UnitErr.
Proof. intros (v & E & N). unfold quantity_value, uto. rewrite E, (dim_eqb_false _ _ N). reflexivity. Qed.
Lemma ivar_bad k q : incompatible q (u_mps k) -> quantity_value (Q (map (fun z => 1 / (z * z)) (qv q)) (option_map unit_inv_sq (qu q))) (u_ivar k) = Err UnitErr.
Proof.
  intros (v & E & N). apply quantity_bad. exists (unit_inv_sq v). cbn [qu]. rewrite E. split; [reflexivity|]. cbn [udim u_mps] in N. unfold unit_inv_sq, u_ivar. destruct (udim v) as [[a b] c]. cbn [udim].
  intro Q. apply N. assert (Q1 := f_equal (fun z => fst (fst z)) Q). assert (Q2 := f_equal (fun z => snd (fst z)) Q). assert (Q3 := f_equal snd Q). cbn [fst snd] in Q1, Q2, Q3. f_equal; [f_equal; lia|lia].
Qed.
Lemma ones_bad k y : qu y <> None -> quantity_value y (u_mps k) = Err UnitErr \/ quantity_value (Q (map (fun _ => 1) (qv y)) (qu y)) (u_ivar k) = Err UnitErr.
Proof.
  intro N. destruct (qu y) as [v|] eqn:E; [|contradiction]. unfold quantity_value, uto. cbn [qu]. rewrite E.
  destruct (dim_eqb (udim v) (udim (u_mps k))) eqn:D; [right|left; reflexivity]. rewrite dim_eqb_false; [reflexivity|]. intro Q. rewrite Q in D. discriminate D.
Qed.
Theorem est_incompatible : forall k periods x y yerr t0s,
  incompatible periods (u_day k) \/ incompatible x (u_day k) \/ incompatible y (u_mps k) \/
  (exists e, yerr = Some e /\ incompatible e (u_mps k)) \/ (exists t, t0s = Some t /\ incompatible t (u_day k)) \/ (yerr = None /\ qu y <> None) ->
  estimate_semi_amplitude k periods x y yerr t0s = Err UnitErr.
Proof.
  intros k periods x y yerr t0s H. unfold estimate_semi_amplitude.
  destruct (quantity_res periods (u_day k)) as [(P & EP)|EP]; rewrite EP; [|reflexivity]. cbn [rbind].
  assert (RT : (exists T0, match t0s with None => Ok None | Some t => v <- quantity_value t (u_day k) ;; Ok (Some v) end = Ok T0) \/
     match t0s with None => Ok None | Some t => v <- quantity_value t (u_day k) ;; Ok (Some v) end = Err UnitErr).
  { destruct t0s as [t|]; [|left; eexists; reflexivity]. destruct (quantity_res t (u_day k)) as [(l & ->)| ->]; [left; eexists; reflexivity|right; reflexivity]. }
  destruct RT as [(T0 & ET)|ET]; rewrite ET; [|reflexivity]. cbn [rbind].
  destruct (quantity_res x (u_day k)) as [(X & EX)|EX]; rewrite EX; [|reflexivity]. cbn [rbind].
  destruct (quantity_res y (u_mps k)) as [(Y & EY)|EY]; rewrite EY; [|reflexivity]. cbn [rbind].
  destruct H as [H|[H|[H|[(e & -> & H)|[(t & -> & H)|[-> H]]]]]].
  - rewrite (quantity_bad _ _ H) in EP. discriminate.
  - rewrite (quantity_bad _ _ H) in EX. discriminate.
  - rewrite (quantity_bad _ _ H) in EY. discriminate.
  - rewrite (ivar_bad _ _ H). reflexivity.
  - rewrite (quantity_bad _ _ H) in ET. discriminate.
  - destruct (ones_bad k y H) as [Q|Q]; [rewrite Q in EY; discriminate|rewrite Q; reflexivity].
Qed.

(** ** lengths *)
Lemma tdot_length D E p A : tdot D E p = Ok A -> length A = p.
Proof. unfold tdot. destruct (Nat.eqb _ _); [|discriminate]. intro Q. injection Q as <-. rewrite map_length, seq_length. reflexivity. Qed.
Lemma amplitudes_length n : forall w, length w = (2 * n)%nat -> length (amplitudes w) = n.
Proof. induction n as [|n IH]; intros w L; [destruct w; [reflexivity|discriminate]|]. destruct w as [|a [|b w]]; try (cbn in L; lia). cbn. f_equal. apply IH. cbn in L. lia. Qed.
Lemma removelast_length n (w : list R) : length w = S n -> length (removelast w) = n.
Proof. intro L. destruct (split_last n w L) as (u & c & -> & LU). rewrite removelast_last. exact LU. Qed.
Lemma est_length k periods x y yerr t0s P K : consts_ok k -> measures periods (u_day k) P -> estimate_semi_amplitude k periods x y yerr t0s = Ok K -> length K = length P.
Proof.
  intros OK MP. unfold estimate_semi_amplitude. rewrite (measures_value _ _ _ (ok_d _ OK : 0 < uscale (u_day k)) MP). cbn [rbind].
  destruct (match t0s with None => Ok None | Some t => v <- quantity_value t (u_day k) ;; Ok (Some v) end) as [T0|]; [|discriminate]. cbn [rbind].
  destruct (quantity_value x _) as [X|]; [|discriminate]. cbn [rbind]. destruct (quantity_value y _) as [Y|]; [|discriminate]. cbn [rbind].
  destruct (quantity_value _ (u_ivar k)) as [V|]; [|discriminate]. cbn [rbind]. destruct (design_matrix _ _ _) as [D|]; [|discriminate]. cbn [rbind].
  destruct (lmap2 _ D V) as [DV|]; [|discriminate]. cbn [rbind]. destruct (lmap2 Rmult Y V) as [YV|]; [|discriminate]. cbn [rbind].
  destruct (tdot _ _ _) as [A|] eqn:EA; [|discriminate]. cbn [rbind]. destruct (tdotv _ _ _) as [b|]; [|discriminate]. cbn [rbind].
  destruct (linsolve A b) as [w|] eqn:EL; [|discriminate]. cbn [rbind]. apply tdot_length in EA. apply linsolve_sound in EL. destruct EL as [LW _]. rewrite EA in LW.
  destruct T0; intro Q; injection Q as <-; [apply removelast_length; exact LW|]. apply amplitudes_length. apply removelast_length. exact LW.
Qed.
Theorem mass_formula : forall k mJ periods x y yerr t0s ms P m K, consts_ok k -> measures periods (u_day k) P -> solar_masses k ms m ->
  estimate_semi_amplitude k periods x y yerr t0s = Ok K ->
  estimate_minimum_mass k mJ periods x y yerr t0s ms =
    Ok (Q (map (fun z => fst z / 28.4329 * Rpower m (2 / 3) * Rpower (snd z / 365.25) (1 / 3)) (combine K P)) (Some mJ)) /\ length K = length P.
Proof.
  intros k mJ periods x y yerr t0s ms P m K OK MP MS E. assert (L := est_length _ _ _ _ _ _ _ _ OK MP E). split; [|exact L].
  refine (mass_form k mJ periods x y yerr t0s ms P m K OK MP MS L _). rewrite <- E. unfold estimate_semi_amplitude.
  rewrite (measures_value _ _ _ (ok_d _ OK : 0 < uscale (u_day k)) MP), (measures_value _ _ _ (ok_d _ OK : 0 < uscale (u_day k)) (day_identity k P OK)). reflexivity.
Qed.
Theorem mass_incompatible : forall k mJ periods x y yerr t0s ms,
  incompatible periods (u_day k) \/ (exists v, qu ms = Some v /\ udim v <> udim (u_M_sun k)) \/ incompatible x (u_day k) \/ incompatible y (u_mps k) \/
  (exists e, yerr = Some e /\ incompatible e (u_mps k)) \/ (exists t, t0s = Some t /\ incompatible t (u_day k)) \/ (yerr = None /\ qu y <> None) ->
  estimate_minimum_mass k mJ periods x y yerr t0s ms = Err UnitErr.
Proof.
  intros k mJ periods x y yerr t0s ms H. unfold estimate_minimum_mass.
  destruct (quantity_res periods (u_day k)) as [(P & EP)|EP]; rewrite EP; [|reflexivity]. cbn [rbind].
  destruct H as [H|[(v & E & N)|H]].
  - rewrite (quantity_bad _ _ H) in EP. discriminate.
  - rewrite E. unfold uto. rewrite (dim_eqb_false _ _ N). reflexivity.
  - destruct (match qu ms with None => Ok (qv ms) | Some v => f <- uto v (u_M_sun k) ;; Ok (qv ms * f) end) as [m|e] eqn:EM; cbn [rbind].
    + rewrite est_incompatible; [reflexivity|]. right. exact H.
    + revert EM. destruct (qu ms); [|discriminate]. unfold uto. destruct (dim_eqb _ _); [discriminate|]. cbn. congruence.
Qed.

(** ** the Keplerian law *)
Lemma mass_kepler_one k p m M mp : consts_ok k -> 0 < p -> 0 < m -> 0 < M ->
  solar_K k p M * mp / 28.4329 * Rpower m (2 / 3) * Rpower (p / 365.25) (1 / 3) = mp * Rpower (m / M) (2 / 3) * (solar_K k 365.25 1 / 28.4329).
Proof.
  intros OK Hp Hm HM. unfold solar_K. assert (HG := ok_G _ OK). assert (Hpi := PI_pos). assert (G2 : 0 < 2 * PI * G_grav k) by (apply Rmult_lt_0_compat; lra).
  replace (m / M) with (m * / M) by reflexivity. rewrite <- (Rpower_mult_distr m (/ M)) by (try assumption; apply Rinv_0_lt_compat; assumption).
  replace (Rpower (/ M) (2 / 3)) with (/ Rpower M (2 / 3)) by (unfold Rpower; rewrite ln_Rinv by assumption; rewrite <- exp_Ropp; f_equal; ring).
  replace (Rpower 1 (2 / 3)) with 1 by (unfold Rpower; rewrite ln_1, Rmult_0_r, exp_0; reflexivity).
  assert (E : Rpower (2 * PI * G_grav k / p) (1 / 3) * Rpower (p / 365.25) (1 / 3) = Rpower (2 * PI * G_grav k / 365.25) (1 / 3)).
  { rewrite Rpower_mult_distr by (apply Rdiv_lt_0_compat; lra). f_equal. replace 365.25 with (36525 / 100) by lra. field. lra. }
  rewrite <- E. assert (0 < Rpower M (2 / 3)) by apply exp_pos. assert (H28 : 28.4329 <> 0) by lra. set (q := 28.4329) in *. assert (O1 := ok_d _ OK). assert (O2 := ok_mps _ OK). field. repeat split; lra.
Qed.
