(** * Secondary eclipses: the flipped system *)
From Coq Require Import Reals List Bool Arith ZArith Lra Lia Psatz.
From Verif Require Import Num CoreOps Inst CoreFlux M_units M_kepler M_fin M_tensor M_simple M_ttv M_limbdark M_secondary
  Spec_orbit Spec_params Spec_array Spec_light Spec_secondary
  L_real L_orbit L_params3 L_fl L_fl2 L_fl3 L_fl4 L_tens L_shape L_transit3 L_transit5 L_array L_motion L_pmotion L_pmotion3 L_pmotion5 L_reshape L_light1 L_light4 L_light7 L_light8.
Import ListNotations.
Local Notation length := List.length.
Open Scope R_scope.

(** ** arrays with one entry per planet *)
Lemma at_shifted n (a : tens) : per_planet n a -> forall i i', (n = 1%nat \/ i O = i' O) -> aget a i = aget a i'.
Proof.
  intros Pa i i' [->|E]; [apply (cst_pp1 a Pa)|]. destruct (pp_sn n a Pa) as [[_ H]|[_ H]]; apply H. exact E.
Qed.
Lemma args_shifted n x : planet_args n x -> forall i i', (n = 1%nat \/ i O = i' O) -> args_at i x = args_at i' x.
Proof.
  intros Px i i' H. destruct Px.
  assert (Oo : forall a : option tens, opt_per_planet n a -> option_map (fun v : tens => aget v i) a = option_map (fun v : tens => aget v i') a).
  { intros [a|] Pa; [|reflexivity]. cbn. f_equal. apply (at_shifted n a Pa _ _ H). }
  assert (Qq : forall a : option (qty tens), qty_per_planet n a -> option_map (map_qty (fun v : tens => aget v i)) a = option_map (map_qty (fun v : tens => aget v i')) a).
  { intros [a|] Pa; [|reflexivity]. cbn. unfold map_qty. do 2 f_equal. apply (at_shifted n _ Pa _ _ H). }
  unfold args_at, map_args.
  rewrite (Qq _ pl_period), (Qq _ pl_a), (Qq _ pl_duration), (Qq _ pl_mp), (Qq _ pl_ms), (Qq _ pl_rs), (Qq _ pl_rho),
      (Oo _ pl_t0), (Oo _ pl_tper), (Oo _ pl_incl), (Oo _ pl_b), (Oo _ pl_ecc), (Oo _ pl_omega), (Oo _ pl_sin), (Oo _ pl_cos),
      (Oo _ pl_Omega), (Oo _ pl_ror). reflexivity.
Qed.
Lemma orbit_shifted k n x o : planet_args n x -> kep_init k x = Ok o -> forall i i', (n = 1%nat \/ i O = i' O) -> orbit_at i o = orbit_at i' o.
Proof.
  intros Px Ho i i' H. assert (E := kep_init_at k i x). assert (E' := kep_init_at k i' x).
  rewrite (args_shifted n x Px i i' H) in E. rewrite E' in E. rewrite Ho in E. cbn [rmap] in E. apply Ok_inj in E. symmetry. exact E.
Qed.
(** an attribute with the right shape *)
Lemma sn_per_planet n (a : tens) : Sn n a -> (n = 1%nat -> cst a) -> per_planet n a.
Proof.
  intros [[E H]|[E H]] C; (split; [|auto]).
  - intros s Es i j _. apply H.
  - intros s Es i j Hij. rewrite E in Es. apply Ok_inj in Es. subst s.
    destruct (Nat.eq_dec n 1) as [N1|N1]; [apply (C N1)|]. apply H. apply Hij. exact N1.
Qed.

Section F.
Variables (k : consts) (n : nat) (x : kargs tens) (xs : nat -> kargs R) (os : nat -> orbit R) (o : orbit tens).
Hypothesis kok : consts_ok k.
Hypothesis sys : system k n x xs os.
Hypothesis Ho : kep_init k x = Ok o.
Variables (r : tens) (rs : nat -> R).
Hypothesis Hr : planet_values n r rs.
Hypothesis Hr0 : forall j, (j < n)%nat -> 0 < rs j.

Lemma o_facts : orbit_sn n o /\ En n (o_n o) /\ En n (o_period o) /\
  (forall i, (i O < n)%nat -> orbit_at i o = fin_orbit (os (i O))).
Proof.
  destruct (system_orbit k n x xs os kok sys) as (o' & Ho' & F). rewrite Ho in Ho'. apply Ok_inj in Ho'. subst o'. exact F.
Qed.
Let So := proj1 o_facts.
Let Eper := proj1 (proj2 (proj2 o_facts)).
Let Oat := proj2 (proj2 (proj2 o_facts)).

Lemma attr_pp (f : orbit fl -> fl) (a : tens) : (forall i, aget a i = f (orbit_at i o)) -> Sn n a -> per_planet n a.
Proof.
  intros E S. apply sn_per_planet; [exact S|]. intros N1 i i'. rewrite !E.
  rewrite (orbit_shifted k n x o (sy_args _ _ _ _ _ sys) Ho i i' (or_introl N1)). reflexivity.
Qed.

Ltac att f := apply (attr_pp f); [reflexivity|]; first [apply So | solve [repeat first [apply So | apply Sn_lit | apply Sn_map2]]].
Lemma flip_planet_args : planet_args n (flip_args o r).
Proof.
  assert (P1 : per_planet n (o_period o)) by att (@o_period fl).
  assert (P2 : per_planet n (o_tper o)) by att (@o_tper fl).
  assert (P3 : per_planet n (o_incl o)) by att (@o_incl fl).
  assert (P4 : per_planet n (o_m_star o)) by att (@o_m_star fl).
  assert (P5 : per_planet n (o_m_planet o)) by att (@o_m_planet fl).
  assert (P6 : per_planet n (o_tper o + nlit 0.5 * o_period o)%num).
  { apply (attr_pp (fun q => (o_tper q + nlit 0.5 * o_period q)%num)); [reflexivity|]. apply Sn_map2; [apply So|]. apply Sn_map2; [apply Sn_lit|apply So]. }
  assert (PO : opt_per_planet n (option_map O_Omega (o_Omega o))).
  { assert (K := os_Omw _ _ So). assert (A : forall w, o_Omega o = Some w -> per_planet n (O_Omega w)).
    { intros w E. rewrite E in K. apply (attr_pp (fun q => match o_Omega q with Some w => O_Omega w | None => NaN end)); [|exact K].
      intro i. unfold orbit_at, map_orbit. cbn [o_Omega]. rewrite E. reflexivity. }
    destruct (o_Omega o); [apply A; reflexivity|exact I]. }
  assert (PE : forall d, o_ecc o = Some d -> per_planet n (e_ecc d) /\ per_planet n (e_omega d - nlit PI)%num).
  { intros d E. assert (K := os_ecc _ _ So). assert (K' := os_eccw _ _ So). rewrite E in K, K'. split.
    - apply (attr_pp (fun q => match o_ecc q with Some w => e_ecc w | None => NaN end)); [|apply K].
      intro i. unfold orbit_at, map_orbit. cbn [o_ecc]. rewrite E. reflexivity.
    - apply (attr_pp (fun q => match o_ecc q with Some w => (e_omega w - nlit PI)%num | None => NaN end)).
      + intro i. unfold orbit_at, map_orbit. cbn [o_ecc]. rewrite E. reflexivity.
      + apply Sn_map2; [exact K'|apply Sn_lit]. }
  unfold flip_args. destruct (o_ecc o) as [d|].
  - destruct (PE d eq_refl) as [Q1 Q2]. constructor; cbn [ka_period ka_a ka_t0 ka_tper ka_incl ka_b ka_duration ka_ecc ka_omega ka_sin_omega ka_cos_omega ka_Omega ka_m_planet ka_m_star ka_r_star ka_rho_star ka_ror qty_per_planet opt_per_planet plain qv]; try exact I; try assumption; [apply Hr|destruct (proj2 Eper) as [E|E]; [left; exact E|destruct (proj1 Eper) as [[E' _]|[E' _]]; [right; split; assumption|left; exact E']]].
  - constructor; cbn [ka_period ka_a ka_t0 ka_tper ka_incl ka_b ka_duration ka_ecc ka_omega ka_sin_omega ka_cos_omega ka_Omega ka_m_planet ka_m_star ka_r_star ka_rho_star ka_ror qty_per_planet opt_per_planet plain qv]; try exact I; try assumption; [apply Hr|destruct (proj2 Eper) as [E|E]; [left; exact E|destruct (proj1 Eper) as [[E' _]|[E' _]]; [right; split; assumption|left; exact E']]].
Qed.
Lemma flip_args_at i : args_at i (flip_args o r) = flip_args (orbit_at i o) (aget r i).
Proof. unfold flip_args, orbit_at, map_orbit. cbn [o_ecc]. cbn [o_Omega]. destruct (o_ecc o), (o_Omega o); reflexivity. Qed.
Lemma flip_args_fin (q : orbit R) (v : R) : flip_args (fin_orbit q) (Fin v) = fin_args (flip_args q v).
Proof.
  unfold flip_args, fin_orbit, map_orbit, fin_args, map_args. cbn [o_ecc o_Omega]. destruct (o_ecc q), (o_Omega q); reflexivity.
Qed.

Lemma flip_system : exists o2 os2, flip k o r = Ok o2 /\ system k n (flip_args o r) (fun j => flip_args (os j) (rs j)) os2 /\
  forall j, (j < n)%nat -> o_r_star (os2 j) = rs j /\ o_a (os2 j) = o_a (os j) /\ o_sin_incl (os2 j) = o_sin_incl (os j) /\ 
    (o_ecc (os2 j) = None <-> o_ecc (os j) = None) /\
    forall t, pos k (os2 j) Relative t None false = opposite (pos k (os j) Relative t None false).
Proof.
  set (os2 := fun j => match flip k (os j) (rs j) with Ok o => o | Err _ => os j end).
  assert (F : forall j, (j < n)%nat -> flip k (os j) (rs j) = Ok (os2 j) /\ physical (os2 j) /\
    o_r_star (os2 j) = rs j /\ o_a (os2 j) = o_a (os j) /\ o_sin_incl (os2 j) = o_sin_incl (os j) /\ (o_ecc (os2 j) = None <-> o_ecc (os j) = None) /\
    forall t, pos k (os2 j) Relative t None false = opposite (pos k (os j) Relative t None false)).
  { intros j Hj. assert (Hi := sy_init _ _ _ _ _ sys j Hj). assert (Hp := sy_phys _ _ _ _ _ sys j Hj). assert (R0 := Hr0 j Hj).
    destruct (flip_init k (xs j) (os j) (rs j) kok Hi Hp R0) as (o' & E1 & E2 & E3 & E4 & E5 & E6 & E7 & E8 & E9 & E10 & E11).
    assert (Q : os2 j = o') by (unfold os2; rewrite E1; reflexivity). rewrite Q. split; [exact E1|]. split; [exact E2|]. split; [exact E5|]. split; [exact E3|].
    assert (F1 := kep_init_facts k kok _ _ Hi Hp). assert (F2 := kep_init_facts k kok _ _ E1 E2).
    split; [rewrite (of_sini _ _ _ F1), (of_sini _ _ _ F2), E8; reflexivity|].
    split.
    { destruct (o_ecc (os j)); [destruct E11 as [_ ->]|destruct E11 as [-> _]]; split; intro; try discriminate; reflexivity. }
    intro t. cbn [pos]. rewrite (rel_pos k kok _ _ E1 E2), (rel_pos k kok _ _ Hi Hp).
    destruct (flip_lin k _ _ _ _ kok Hi Hp R0 E1 t (- o_a o' * plxf k None)) as (-> & _). rewrite E3.
    unfold lin, opposite, vadd, vscale, vx, vy, vz. cbn. apply vec_eq; ring. }
  assert (sys2 : system k n (flip_args o r) (fun j => flip_args (os j) (rs j)) os2).
  { constructor.
    - apply (sy_n _ _ _ _ _ sys).
    - apply flip_planet_args.
    - intros j Hj. rewrite flip_args_at, (proj2 Hr j Hj), (Oat (at_planet j) Hj). apply flip_args_fin.
    - intros j Hj. apply (F j Hj).
    - intros j Hj. apply (F j Hj).
    - intros j Hj. unfold no_ecc_duration, flip_args. destruct (o_ecc (os j)); cbn; auto. }
  destruct (system_orbit k n _ _ _ kok sys2) as (o2 & Ho2 & _). exists o2, os2. split; [exact Ho2|]. split; [exact sys2|].
  intros j Hj. destruct (F j Hj) as (_ & _ & G). exact G.
Qed.
End F.
