(** * Undefined times of interpolated light curves *)
From Coq Require Import Reals List Bool Arith ZArith Lra Lia.
From Verif Require Import Num CoreOps Inst CoreFlux M_units M_kepler M_tensor M_simple M_ttv M_limbdark M_interpolated
  Spec_orbit Spec_array Spec_light Spec_interp Spec_undef L_fl L_real L_interp L_interp2 L_interp3 L_interp4 Ex_orbit Ex_system M_fin.
Import ListNotations.
Open Scope R_scope.

Lemma map_res_err {A C} (f : A -> res C) e l a : (forall a, In a l -> (exists c, f a = Ok c) \/ f a = Err e) -> In a l -> f a = Err e -> map_res f l = Err e.
Proof.
  induction l as [|b l IH]; intros H I E; [contradiction|]. cbn [map_res]. destruct (H b (or_introl eq_refl)) as [[c Hc]|Hc]; rewrite Hc; cbn [rbind]; [|reflexivity].
  destruct I as [->|I]; [rewrite E in Hc; discriminate|]. rewrite IH; [reflexivity| |exact I|exact E]. intros q Hq. apply H. right. exact Hq.
Qed.
Lemma map_res_map {A C D} (f : C -> res D) (g : A -> C) l : map_res f (map g l) = map_res (fun a => f (g a)) l.
Proof. induction l as [|a l IH]; [reflexivity|]. cbn [map map_res]. rewrite IH. reflexivity. Qed.
Lemma folded_undefined Q n base (f : nat -> R -> R) j t0 P l a : 0 < P -> (0 <= Q)%Z -> pointwise n base f -> (j < n)%nat -> In a l -> undefined a ->
  folded j Q base (Fin t0) (Fin P) l = Err IndexErr.
Proof.
  intros HP HQ HB Hj Ha Hu.
  assert (F := fun t => folded_value t0 P Q HP HQ n base f j [t] HB Hj). unfold folded in *. cbv zeta in *. cbn [map] in F. unfold interp in *.
  destruct (arange _ _ _) as [xp|]; cbn [rbind] in *; [|discriminate (F 0)]. destruct (base (avec xp)) as [yp|]; cbn [rbind] in *; [|discriminate (F 0)].
  destruct (column j yp) as [ys|]; cbn [rbind] in *; [|discriminate (F 0)]. rewrite map_res_map. set (h := fun a => interp_at _ _ _ _ _).
  assert (U : forall a, undefined a -> h a = Err IndexErr).
  { intros b Hb. unfold h, interp_at. replace (nmod (b - Fin t0) (Fin P))%num with NaN; [reflexivity|]. destruct b; [exfalso; apply (Hb r); reflexivity|reflexivity|reflexivity]. }
  apply (map_res_err h IndexErr l a); [|exact Ha|apply U; exact Hu].
  intros b _. destruct b as [t| |]; [left|right; apply U; intros ? ?; discriminate|right; apply U; intros ? ?; discriminate].
  specialize (F t). cbn [map_res] in F. unfold h. destruct (interp_at _ _ _ _ _) as [c|]; [exists c; reflexivity|discriminate F].
Qed.
Lemma interp_undefined : forall n base Q np tv t0 period f T0 P s t i, interpolating n base Q np tv t0 period f T0 P -> ash t = Ok s -> (i < prod s)%nat -> undefined (aget t (unlin s i)) ->
  interpolated_light_curve base Q np tv t0 period t = Err IndexErr.
Proof.
  intros n base Q np tv t0 period f T0 P s t i I HS Hi Hu. destruct (ip_base _ _ _ _ _ _ _ _ _ _ I) as [p [Hp HB]].
  assert (HQ := ip_grid _ _ _ _ _ _ _ _ _ _ I). destruct (counted_ok _ _ _ (ip_count _ _ _ _ _ _ _ _ _ _ I)) as [z [Hz Hn]].
  destruct (ip_t0 _ _ _ _ _ _ _ _ _ _ I) as [S0 V0]. destruct (ip_period _ _ _ _ _ _ _ _ _ _ I) as [SP VP]. assert (HP := ip_pos _ _ _ _ _ _ _ _ _ _ I).
  unfold interpolated_light_curve. rewrite Hz. cbn [rbind]. rewrite HS. cbn [rbind]. unfold entries. rewrite HS. cbn [rmap rbind].
  assert (J : In (aget t (unlin s i)) (map (fun m => aget t (unlin s m)) (seq 0 (prod s)))) by (apply (in_map (fun m => aget t (unlin s m))); apply in_seq; lia).
  destruct (Z.leb_spec z 1) as [L|L].
  - assert (n = 1%nat) by lia. subst n. cbn [Nat.leb] in S0, SP. unfold scalar_of. rewrite S0, SP. cbn [rbind].
    rewrite (V0 ix0 Nat.lt_0_1 : aget t0 ix0 = Fin (T0 O)), (VP ix0 Nat.lt_0_1 : aget period ix0 = Fin (P O)).
    rewrite (folded_undefined Q p base f O (T0 O) (P O) _ _ (HP O ltac:(lia)) HQ HB ltac:(lia) J Hu). reflexivity.
  - assert (n2 : Nat.leb n 1 = false) by (apply Nat.leb_gt; lia). rewrite n2 in *. destruct S0 as [d0 [L0 S0]]. destruct SP as [dP [LP SP]].
    replace (Z.to_nat z) with (S (Nat.pred n)) by lia. cbn [seq map_res]. unfold tix at 1 2. rewrite S0, SP.
    replace (Nat.ltb 0 d0) with true by (symmetry; apply Nat.ltb_lt; lia). replace (Nat.ltb 0 dP) with true by (symmetry; apply Nat.ltb_lt; lia). cbn [rbind].
    rewrite (V0 (fun _ => O)), (VP (fun _ => O)) by lia. rewrite (folded_undefined Q p base f O (T0 O) (P O) _ _ (HP O ltac:(lia)) HQ HB ltac:(lia) J Hu). reflexivity.
Qed.
Lemma interp_undefined_example : forall cp, exists o r, kep_init ek (ex_scalar_args 0) = Ok o /\
  (exists f T0 P, interpolating 1 (fun t => get_light_curve (ld_init (Fin (3 / 10)) (Fin (2 / 10))) (Some (kep_api ek (lift_cp cp) o)) (Some r) (Some t) None 7 0 None false)
    50 None (Some 1%nat) (o_t0 o) (o_period o) f T0 P) /\
  let t := mkA (Ok [3]%nat) (fun i => if Nat.eqb (i O) 1 then NaN else Fin (INR (i O))) in ash t = Ok [3]%nat /\ undefined (aget t (unlin [3]%nat 1)).
Proof.
  intro cp. destruct (shape_example cp) as (o & r & A & B & _). exists o, r. split; [exact A|]. split; [exact B|]. split; [reflexivity|]. intros x H. discriminate.
Qed.
