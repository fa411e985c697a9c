(** * estimate_semi_amplitude as a least-squares problem *)
From Coq Require Import Reals List Bool Arith ZArith Lia Lra.
From Verif Require Import Num CoreLin L_lin M_units M_ttv M_rv Spec_rv L_rv1.
Import ListNotations.
Open Scope R_scope.

Lemma dim_eqb_true a b : a = b -> dim_eqb a b = true.
Proof. intros <-. destruct a as [[x y] z]. cbn. rewrite !Z.eqb_refl. reflexivity. Qed.
Lemma dim_eqb_false a b : a <> b -> dim_eqb a b = false.
Proof.
  intro N. destruct (dim_eqb a b) eqn:E; [|reflexivity]. exfalso. apply N. destruct a as [[x y] z], b as [[x' y'] z']. cbn in E.
  apply andb_prop in E. destruct E as [E E3]. apply andb_prop in E. destruct E as [E1 E2]. apply Z.eqb_eq in E1, E2, E3. congruence.
Qed.
Lemma measures_value q u l : 0 < uscale u -> measures q u l -> quantity_value q u = Ok l.
Proof.
  intros U M. unfold measures in M. unfold quantity_value, uto. destruct (qu q) as [v|]; [|rewrite M; reflexivity].
  destruct M as (D & S & E). rewrite (dim_eqb_true _ _ D). cbn [rbind]. f_equal. revert l E. induction (qv q) as [|z r IH]; destruct l as [|w l]; intro E; try discriminate; [reflexivity|].
  cbn in E. injection E as E1 E2. cbn. f_equal; [|apply IH; exact E2]. replace (z * (uscale v / uscale u)) with (z * uscale v / uscale u) by (field; lra). rewrite E1. field. lra.
Qed.
Lemma measures_length q u l : measures q u l -> length (qv q) = length l.
Proof.
  unfold measures. destruct (qu q); [|intros ->; reflexivity]. intros (_ & _ & E). apply (f_equal (@length R)) in E. rewrite !map_length in E. exact E.
Qed.
Lemma measures_ivar k q l : 0 < s_mps k -> List.Forall (fun s => s <> 0) l -> measures q (u_mps k) l ->
  quantity_value (Q (map (fun z => 1 / (z * z)) (qv q)) (option_map unit_inv_sq (qu q))) (u_ivar k) = Ok (map (fun s => 1 / (s * s)) l).
Proof.
  intros U NZ M. unfold measures in M. unfold quantity_value, uto. cbn [qu qv]. destruct (qu q) as [v|]; cbn [option_map]; [|rewrite M; reflexivity].
  destruct M as (D & S & E). unfold unit_inv_sq. rewrite D. cbn [udim u_mps]. unfold u_ivar at 1. cbn [udim uscale]. rewrite dim_eqb_true by reflexivity. cbn [rbind u_ivar uscale]. f_equal.
  revert l NZ E. cbn [uscale u_mps]. induction (qv q) as [|z r IH]; destruct l as [|w l]; intros NZ E; try discriminate; [reflexivity|].
  cbn in E. injection E as E1 E2. inversion NZ; subst. cbn [map]. f_equal; [|apply IH; assumption].
  assert (z <> 0). { intros ->. rewrite Rmult_0_l in E1. symmetry in E1. apply Rmult_integral in E1. destruct E1; lra. }
  replace z with (w * s_mps k / uscale v) by (rewrite <- E1; field; lra). field. repeat split; try lra; try assumption.
Qed.

Lemma lmap2_eq {A C D} (f : A -> C -> D) a b : length a = length b -> lmap2 f a b = Ok (map (fun p => f (fst p) (snd p)) (combine a b)).
Proof. intro L. unfold lmap2. rewrite L, Nat.eqb_refl. reflexivity. Qed.
Lemma lmap2_one {A C D} (f : A -> C -> D) a y : lmap2 f a [y] = Ok (map (fun x => f x y) a).
Proof. unfold lmap2. destruct (Nat.eqb _ _) eqn:E; [|destruct a as [|? [|? ?]]; reflexivity]. apply Nat.eqb_eq in E. destruct a as [|x [|? ?]]; try discriminate. reflexivity. Qed.

Fixpoint mkobs (drow : R -> list R) (X Sg Y : list R) : list ob :=
  match X, Sg, Y with
  | t :: X, s :: Sg, y :: Y => (drow t, 1 / (s * s), y) :: mkobs drow X Sg Y
  | _, _, _ => []
  end.
Section OBS.
Variables (drow : R -> list R) (X Sg Y : list R).
Hypotheses (LS : length Sg = length X) (LY : length Y = length X).
Lemma obs_row : map orow (mkobs drow X Sg Y) = map drow X.
Proof using LS LY. revert Sg Y LS LY. induction X as [|t X' IH]; intros [|s Sg'] [|y Y'] L1 L2; try discriminate; [reflexivity|]. cbn. f_equal. apply IH; [cbn in L1; lia|cbn in L2; lia]. Qed.
Lemma obs_wt : map owt (mkobs drow X Sg Y) = map (fun s => 1 / (s * s)) Sg.
Proof using LS LY. revert Sg Y LS LY. induction X as [|t X' IH]; intros [|s Sg'] [|y Y'] L1 L2; try discriminate; [reflexivity|]. cbn. f_equal. apply IH; [cbn in L1; lia|cbn in L2; lia]. Qed.
Lemma obs_y : map oy (mkobs drow X Sg Y) = Y.
Proof using LS LY. revert Sg Y LS LY. induction X as [|t X' IH]; intros [|s Sg'] [|y Y'] L1 L2; try discriminate; [reflexivity|]. cbn. f_equal. apply IH; [cbn in L1; lia|cbn in L2; lia]. Qed.
Lemma obs_len : length (mkobs drow X Sg Y) = length X.
Proof using LS LY. assert (H := f_equal (@length _) obs_row). rewrite !map_length in H. exact H. Qed.
End OBS.
Lemma obs_in drow X : forall Sg Y o, In o (mkobs drow X Sg Y) -> exists t s y, In t X /\ In s Sg /\ o = (drow t, 1 / (s * s), y) /\ In (t, y) (combine X Y).
Proof.
  induction X as [|t X IH]; intros [|s Sg] [|y Y] o I; try contradiction. destruct I as [<-|I].
  - exists t, s, y. repeat split; left; reflexivity.
  - destruct (IH Sg Y o I) as (t' & s' & y' & H1 & H2 & H3 & H4). exists t', s', y'. repeat split; try assumption; right; assumption.
Qed.
Lemma obs_all drow (X : list R) : forall Sg Y t, length Sg = length X -> length Y = length X -> In t X -> exists o, In o (mkobs drow X Sg Y) /\ orow o = drow t.
Proof.
  intros Sg Y t LS LY I. assert (H := obs_row drow X Sg Y LS LY). assert (I2 : In (drow t) (map orow (mkobs drow X Sg Y))) by (rewrite H; apply in_map; exact I).
  apply in_map_iff in I2. destruct I2 as (o & E & I2). exists o. split; assumption.
Qed.
Lemma combine_map {A B C} (f : A -> B) (g : A -> C) l : combine (map f l) (map g l) = map (fun a => (f a, g a)) l.
Proof. induction l as [|a l IH]; [reflexivity|]. cbn. rewrite IH. reflexivity. Qed.
Lemma nth_scaled i v r : nth i (map (fun z => z * v) r) 0 = nth i r 0 * v.
Proof. revert i. induction r as [|x r IH]; destruct i; cbn; try (ring || reflexivity). apply IH. Qed.
Lemma combine_repeat {A C} (a : list A) (v : C) : combine a (repeat v (length a)) = map (fun x => (x, v)) a.
Proof. induction a as [|x a IH]; [reflexivity|]. cbn. rewrite IH. reflexivity. Qed.

Lemma map_repeat {A C} (f : A -> C) v n : map f (repeat v n) = repeat (f v) n.
Proof. induction n as [|n IH]; [reflexivity|]. cbn. rewrite IH. reflexivity. Qed.
(** weights of length n, or one weight for all *)
Definition spread (V VV : list R) (n : nat) : Prop := V = VV /\ length VV = n \/ exists v, V = [v] /\ VV = repeat v n.
Lemma lmap2_spread {A C} (f : A -> R -> C) a V VV : spread V VV (length a) -> lmap2 f a V = Ok (map (fun p => f (fst p) (snd p)) (combine a VV)).
Proof.
  intros [[-> L]|(v & -> & ->)]; [apply lmap2_eq; symmetry; exact L|]. rewrite lmap2_one, combine_repeat, map_map. reflexivity.
Qed.
Lemma normal_equations drow X Sg Y V p : length Sg = length X -> length Y = length X -> spread V (map (fun s => 1 / (s * s)) Sg) (length X) ->
  (DV <- lmap2 (fun r v => map (fun z => z * v) r) (map drow X) V ;;
   YV <- lmap2 Rmult Y V ;;
   A <- tdot (map drow X) DV p ;;
   b <- tdotv (map drow X) YV p ;;
   linsolve A b) = linsolve (gram (mkobs drow X Sg Y) p) (grhs (mkobs drow X Sg Y) p).
Proof.
  intros LS LY SP. rewrite (lmap2_spread _ (map drow X) V (map (fun s => 1 / (s * s)) Sg)) by (rewrite map_length; exact SP).
  rewrite (lmap2_spread _ Y V (map (fun s => 1 / (s * s)) Sg)) by (rewrite LY; exact SP). cbn [rbind].
  set (l := mkobs drow X Sg Y). rewrite <- (obs_row drow X Sg Y LS LY), <- (obs_wt drow X Sg Y LS LY). fold l.
  assert (EY : combine Y (map owt l) = map (fun o => (oy o, owt o)) l) by (rewrite <- (obs_y drow X Sg Y LS LY) at 1; apply combine_map).
  rewrite EY, combine_map, !map_map. unfold tdot, tdotv. rewrite !map_length, Nat.eqb_refl. cbn [rbind]. f_equal.
  - unfold gram. apply map_ext. intro i. apply map_ext. intro j. rewrite !map_map, dot_map. apply sumf_ext. intros o _. cbn [fst snd]. rewrite nth_scaled. ring.
  - unfold grhs. apply map_ext. intro i. rewrite !map_map, dot_map. apply sumf_ext. intros o _. cbn [fst snd]. ring.
Qed.

Lemma uncertainties_spread n e sigma : uncertainties n (Some e) sigma -> spread (map (fun s => 1 / (s * s)) e) (map (fun s => 1 / (s * s)) sigma) n /\ length sigma = n.
Proof.
  intros [_ [[-> L]|(s & -> & ->)]].
  - split; [|exact L]. left. split; [reflexivity|]. rewrite map_length. exact L.
  - split; [|apply repeat_length]. right. exists (1 / (s * s)). split; [reflexivity|]. rewrite map_repeat. reflexivity.
Qed.
Lemma uncertainties_nonzero n e sigma : uncertainties n e sigma -> forall s, In s sigma -> s <> 0.
Proof.
  destruct e as [e|]; cbn.
  - intros [F [[-> _]|(s & -> & ->)]] z I; rewrite Forall_forall in F; [apply F; exact I|]. apply repeat_spec in I. subst. apply F. left; reflexivity.
  - intros -> z I. apply repeat_spec in I. subst. lra.
Qed.

Lemma loss_chi2 f (drow : R -> list R) w : forall ts vs sigma, (forall t, In t ts -> f t = dot (drow t) w) -> (forall s, In s sigma -> s <> 0) ->
  loss (mkobs drow ts sigma vs) w = chi2 f ts vs sigma.
Proof.
  induction ts as [|t r IH]; intros [|v vs] [|s sigma] F NZ; try reflexivity.
  cbn [mkobs chi2]. unfold loss. cbn [sumf]. fold (loss (mkobs drow r sigma vs) w). f_equal.
  - unfold owt, oy, orow. cbn [fst snd]. rewrite F by (left; reflexivity). field. apply NZ. left; reflexivity.
  - apply IH; [intros; apply F; right; assumption|intros; apply NZ; right; assumption].
Qed.

Section EST.
Variables (k : consts) (periods x y : qty (list R)) (yerr t0s : option (qty (list R))) (P ts vs sigma : list R) (T0 : option (list R)).
Hypothesis OK : consts_ok k.
Hypothesis MP : measures periods (u_day k) P.
Hypothesis MT : opt_measures t0s (u_day k) T0.
Hypothesis MD : rv_data k x y yerr ts vs sigma.
Lemma sigma_nonzero s : In s sigma -> s <> 0.
Proof using MD. destruct (rv_err _ _ _ _ _ _ _ MD) as (e & _ & U). exact (uncertainties_nonzero _ _ _ U s). Qed.
Lemma sigma_length : length sigma = length ts.
Proof using MD.
  destruct (rv_err _ _ _ _ _ _ _ MD) as (e & _ & U). destruct e as [e|]; [exact (proj2 (uncertainties_spread _ _ _ U))|]. cbn in U. rewrite U. apply repeat_length.
Qed.
Lemma ivar_spread : exists V, quantity_value match yerr with
              | None => Q (map (fun _ => 1) (qv y)) (qu y)
              | Some e => Q (map (fun z => 1 / (z * z)) (qv e)) (option_map unit_inv_sq (qu e))
              end (u_ivar k) = Ok V /\ spread V (map (fun s => 1 / (s * s)) sigma) (length ts).
Proof using OK MD.
  destruct (rv_err _ _ _ _ _ _ _ MD) as (e & M & U). destruct yerr as [q|] eqn:EY; destruct e as [e|]; try contradiction.
  - cbn in M. exists (map (fun s => 1 / (s * s)) e). split; [apply measures_ivar; [apply (ok_mps _ OK)|exact (proj1 U)|exact M]|]. exact (proj1 (uncertainties_spread _ _ _ U)).
  - exists (map (fun _ => 1) (qv y)). assert (H := rv_unit _ _ _ _ _ _ _ MD eq_refl). split; [unfold quantity_value; cbn [qu qv]; rewrite H; reflexivity|].
    cbn in U. assert (HL := measures_length _ _ _ (rv_y _ _ _ _ _ _ _ MD)). assert (HL2 := rv_len _ _ _ _ _ _ _ MD). left. rewrite U, map_repeat, repeat_length. split; [|reflexivity].
    replace (length ts) with (length (qv y)) by lia. clear. induction (qv y) as [|z r IH]; [reflexivity|]. cbn. rewrite IH. f_equal. field.
Qed.
Definition est_row : R -> list R := fun t =>
  match T0 with
  | Some t0s => map (fun pt => cos (2 * PI * (t - (snd pt - 0.25 * fst pt)) / fst pt)) (combine P t0s) ++ [1]
  | None => concat (map (fun p => [sin (2 * PI * t / p); cos (2 * PI * t / p)]) P) ++ [1]
  end.
Definition est_p : nat := match T0 with Some _ => S (length P) | None => S (2 * length P) end.
Definition est_obs := mkobs est_row ts sigma vs.
Lemma est_form : match T0 with Some l => (length P <= length l)%nat | None => True end ->
  estimate_semi_amplitude k periods x y yerr t0s =
   rmap (fun w => match T0 with Some _ => removelast w | None => amplitudes (removelast w) end) (linsolve (gram est_obs est_p) (grhs est_obs est_p)).
Proof using OK MP MT MD.
  intro LT. destruct ivar_spread as (V & EV & SV). unfold estimate_semi_amplitude.
  assert (OD : 0 < uscale (u_day k)) by exact (ok_d _ OK). assert (OM : 0 < uscale (u_mps k)) by exact (ok_mps _ OK).
  rewrite (measures_value _ _ _ OD MP). cbn [rbind].
  replace (match t0s with None => Ok None | Some t => v <- quantity_value t (u_day k) ;; Ok (Some v) end) with (@Ok (option (list R)) T0)
    by (destruct t0s as [q|], T0 as [l|]; try contradiction; [cbn in MT; rewrite (measures_value _ _ _ OD MT); reflexivity|reflexivity]).
  cbn [rbind]. rewrite (measures_value _ _ _ OD (rv_x _ _ _ _ _ _ _ MD)). cbn [rbind]. rewrite (measures_value _ _ _ OM (rv_y _ _ _ _ _ _ _ MD)). cbn [rbind].
  rewrite EV. cbn [rbind].
  assert (DM : design_matrix P T0 ts = Ok (map est_row ts)).
  { unfold design_matrix, est_row. destruct T0 as [l|]; [|reflexivity]. assert (Nat.ltb (length l) (length P) = false) as -> by (apply Nat.ltb_ge; exact LT). reflexivity. }
  rewrite DM. cbn [rbind]. assert (NE := normal_equations est_row ts sigma vs V est_p sigma_length (rv_len _ _ _ _ _ _ _ MD) SV).
  unfold est_obs. rewrite <- NE. fold est_p.
  destruct (lmap2 _ (map est_row ts) V) as [DV|]; cbn [rbind rmap]; [|reflexivity]. destruct (lmap2 Rmult vs V) as [YV|]; cbn [rbind rmap]; [|reflexivity].
  destruct (tdot _ DV est_p) as [A|]; cbn [rbind rmap]; [|reflexivity]. destruct (tdotv _ YV est_p) as [b|]; cbn [rbind rmap]; [|reflexivity].
  destruct (linsolve A b); cbn [rbind rmap]; [|reflexivity]. destruct T0; reflexivity.
Qed.
Lemma est_width o : match T0 with Some l => (length P <= length l)%nat | None => True end -> In o est_obs -> length (orow o) = est_p.
Proof using.
  clear MT. intros LT I. destruct (obs_in _ _ _ _ _ I) as (t & s & v & _ & _ & -> & _). unfold orow, est_row, est_p. cbn [fst]. destruct T0 as [l|].
  - rewrite app_length, map_length, combine_length. cbn. lia.
  - rewrite app_length. cbn [length]. clear. induction P as [|p r IH]; [reflexivity|]. cbn in *. lia.
Qed.
Lemma est_weight o : In o est_obs -> 0 < owt o.
Proof using MD.
  intro I. destruct (obs_in _ _ _ _ _ I) as (t & s & v & _ & Is & -> & _). unfold owt. cbn. assert (s <> 0) by (apply sigma_nonzero; exact Is).
  apply Rdiv_lt_0_compat; [lra|]. assert (0 < Rsqr s) by (apply Rsqr_pos_lt; assumption). exact H0.
Qed.
Lemma est_loss f w : (forall t, In t ts -> f t = dot (est_row t) w) -> loss est_obs w = chi2 f ts vs sigma.
Proof using MD. intro F. apply loss_chi2; [exact F|exact sigma_nonzero]. Qed.
End EST.
