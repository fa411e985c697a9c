(** * Convergent parameters give convergent attributes *)
From Coq Require Import Reals Lra Lia Bool.
From Coquelicot Require Import Coquelicot.
From Verif Require Import Num CoreOps Inst M_units M_kepler Spec_orbit Spec_params Spec_cont L_real L_orbit L_flux L_params3 L_scale.
Open Scope R_scope.

Lemma cv_const c : Un_cv (fun _ => c) c.
Proof. intros e H. exists 0%nat. intros n _. rewrite R_dist_eq. exact H. Qed.
Lemma cv_app (f : R -> R) u l : continuity_pt f l -> Un_cv u l -> Un_cv (fun n => f (u n)) (f l).
Proof. intros. apply continuity_seq; assumption. Qed.
Lemma cv_ext u v l : (forall n, u n = v n) -> Un_cv u l -> Un_cv v l.
Proof. intros H C e He. destruct (C e He) as [N HN]. exists N. intros n Hn. rewrite <- H. auto. Qed.
Lemma cv_inv u l : l <> 0 -> Un_cv u l -> Un_cv (fun n => / u n) (/ l).
Proof. intros Hl C. apply (cv_app Rinv); [|exact C]. apply (continuity_pt_inv (fun x => x)); [|exact Hl]. apply continuity_pt_id. Qed.
Lemma cv_div u v l m : m <> 0 -> Un_cv u l -> Un_cv v m -> Un_cv (fun n => u n / v n) (l / m).
Proof. intros. unfold Rdiv. apply CV_mult; [assumption|]. apply cv_inv; assumption. Qed.
Lemma cv_sin u l : Un_cv u l -> Un_cv (fun n => sin (u n)) (sin l).
Proof. apply cv_app, continuity_sin. Qed.
Lemma cv_cos u l : Un_cv u l -> Un_cv (fun n => cos (u n)) (cos l).
Proof. apply cv_app, continuity_cos. Qed.
Lemma sqrt_cont x : continuity_pt sqrt x.
Proof.
  destruct (Rle_lt_dec 0 x) as [i|i]; [apply continuity_pt_sqrt; exact i|].
  intros e He. exists (- x). split; [lra|]. intros y [_ Hy]. simpl in *. unfold R_dist in *.
  rewrite (sqrt_neg_0 x), (sqrt_neg_0 y). { rewrite Rminus_0_r, Rabs_R0. exact He. } { apply Rabs_def2 in Hy. lra. } lra.
Qed.
Lemma cv_sqrt u l : Un_cv u l -> Un_cv (fun n => sqrt (u n)) (sqrt l).
Proof. apply cv_app, sqrt_cont. Qed.
Lemma cv_acos u l : Un_cv u l -> Un_cv (fun n => acos (u n)) (acos l).
Proof. apply cv_app. apply continuity_pt_filterlim. apply acos_cont. Qed.
Lemma cv_pos u l : 0 < l -> Un_cv u l -> exists N, forall n, (N <= n)%nat -> 0 < u n.
Proof. intros Hl C. destruct (C l Hl) as [N HN]. exists N. intros n Hn. specialize (HN n Hn). unfold R_dist in HN. apply Rabs_def2 in HN. lra. Qed.
Lemma cv_late u v l N : (forall n, (N <= n)%nat -> u n = v n) -> Un_cv u l -> Un_cv v l.
Proof. intros H C e He. destruct (C e He) as [M HM]. exists (max N M). intros n Hn. rewrite <- H by lia. apply HM. lia. Qed.
Lemma cv_powr u l y : 0 < l -> Un_cv u l -> Un_cv (fun n => Rpowr (u n) y) (Rpowr l y).
Proof.
  intros Hl C. destruct (cv_pos u l Hl C) as [N HN].
  apply cv_late with (u := fun n => Rpower (u n) y) (N := N).
  - intros n Hn. unfold Rpowr. destruct (Rlt_dec 0 (u n)) as [i|i]; [reflexivity|]. exfalso. apply i. auto.
  - unfold Rpowr. destruct (Rlt_dec 0 l) as [i|i]; [|lra]. unfold Rpower.
    apply (cv_app exp). { apply derivable_continuous_pt, derivable_pt_exp. }
    apply CV_mult; [apply cv_const|]. apply (cv_app ln); [|exact C].
    apply derivable_continuous_pt. exists (/ l). apply derivable_pt_lim_ln. exact Hl.
Qed.
Lemma cv_atan2 u v y x : 0 < x -> Un_cv u y -> Un_cv v x -> Un_cv (fun n => Ratan2 (u n) (v n)) (Ratan2 y x).
Proof.
  intros Hx Cu Cv. destruct (cv_pos v x Hx Cv) as [N HN].
  apply cv_late with (u := fun n => atan (u n / v n)) (N := N).
  - intros n Hn. unfold Ratan2. destruct (Rlt_dec 0 (v n)) as [i|i]; [reflexivity|]. exfalso. apply i. auto.
  - unfold Ratan2. destruct (Rlt_dec 0 x) as [i|i]; [|lra].
    apply (cv_app atan). { apply derivable_continuous_pt, derivable_pt_atan. } apply cv_div; [lra|assumption|assumption].
Qed.
Lemma cv_opp u l : Un_cv u l -> Un_cv (fun n => - u n) (- l).
Proof. apply CV_opp. Qed.

(** a step of a limit computation *)
Ltac cvstep := first
 [ eassumption
 | apply cv_const
 | match goal with
   | |- Un_cv (fun n => _ + _) _ => apply CV_plus
   | |- Un_cv (fun n => _ - _) _ => apply CV_minus
   | |- Un_cv (fun n => _ / _) _ => apply cv_div
   | |- Un_cv (fun n => _ * _) _ => apply CV_mult
   | |- Un_cv (fun n => - _) _ => apply cv_opp
   | |- Un_cv (fun n => sin _) _ => apply cv_sin
   | |- Un_cv (fun n => cos _) _ => apply cv_cos
   | |- Un_cv (fun n => sqrt _) _ => apply cv_sqrt
   | |- Un_cv (fun n => acos _) _ => apply cv_acos
   | |- Un_cv (fun n => Rpowr _ _) _ => apply cv_powr
   | |- Un_cv (fun n => Ratan2 _ _) _ => apply cv_atan2
   end ].
Ltac cv := repeat cvstep.

Section S.
Variable k : consts.
Hypothesis kok : consts_ok k.

Lemma to_unit_tends qs q u v : qty_tends qs q -> to_unit q u = Ok v -> exists vs, (forall n, to_unit (qs n) u = Ok (vs n)) /\ Un_cv vs v.
Proof.
  intros [U C] H. unfold to_unit in *. destruct (qu q) as [w|].
  - destruct (uto w u) as [f|] eqn:EU; cbn in H; [|discriminate]. apply Ok_inj in H. subst v.
    exists (fun n => qv (qs n) * f). split. { intro n. rewrite U, EU. reflexivity. } cv.
  - apply Ok_inj in H. subst v. eexists. split. { intro n. rewrite U. reflexivity. } cv.
Qed.
Lemma opt_unit_tends qs q u v : given_tends qty_tends qs q -> opt_to_unit q u = Ok v -> exists vs, (forall n, opt_to_unit (qs n) u = Ok (vs n)) /\ given_tends Un_cv vs v.
Proof.
  intros G H. destruct q as [q|].
  - destruct G as (ws & E & C). cbn in H. destruct (to_unit q u) as [w|] eqn:T; cbn in H; [|discriminate]. apply Ok_inj in H. subst v.
    destruct (to_unit_tends ws q u w C T) as (vs & V & L). exists (fun n => Some (vs n)). split.
    + intro n. rewrite E. cbn. rewrite V. reflexivity.
    + exists vs. split; [reflexivity|exact L].
  - cbn in H. apply Ok_inj in H. subst v. exists (fun _ => None). split; [|intro; reflexivity]. intro n. cbn in G. rewrite G. reflexivity.
Qed.
Lemma plain_tends us u : Un_cv us u -> qty_tends (fun n => plain (us n)) (plain u).
Proof. intro H. split; [reflexivity|exact H]. Qed.
Lemma given_none {A} (to : (nat -> A) -> A -> Prop) us v : given_tends to us v -> forall n, is_none (us n) = is_none v.
Proof. destruct v as [a|]; cbn. { intros (as_ & E & _) n. rewrite E. reflexivity. } intros E n. rewrite E. reflexivity. Qed.
(** keplerian.py:849-934 *)
Definition six_tend (vs : nat -> R * R * R * R * R * R) (v : R * R * R * R * R * R) : Prop :=
  let '(a, p, rho, rs, ms, mp) := v in
  Un_cv (fun n => fst (fst (fst (fst (fst (vs n)))))) a /\ Un_cv (fun n => snd (fst (fst (fst (fst (vs n)))))) p /\ Un_cv (fun n => snd (fst (fst (fst (vs n))))) rho /\
  Un_cv (fun n => snd (fst (fst (vs n)))) rs /\ Un_cv (fun n => snd (fst (vs n))) ms /\ Un_cv (fun n => snd (vs n)) mp.
Definition six_pos (v : R * R * R * R * R * R) : Prop := let '(a, p, rho, rs, ms, mp) := v in 0 < a /\ 0 < p /\ 0 < rs /\ 0 < ms + mp.

Lemma Rpowr_pos_base x y : 0 < y -> 0 < Rpowr x y -> 0 < x.
Proof. intros Hy H. unfold Rpowr in H. destruct (Rlt_dec 0 x) as [i|i]; [exact i|]. destruct (Req_EM_T y 0); lra. Qed.
Lemma nz_div a b : a / b <> 0 -> b <> 0.
Proof. intros H e. apply H. rewrite e. unfold Rdiv. rewrite Rinv_0. ring. Qed.

Definition mass_of (m a1 p1 : option R) : R := match m, a1, p1 with Some m, _, _ => m | None, Some x, _ => 0 | None, None, Some p => 0 | None, None, None => 0 end.
Definition star_of (rho_star r_star m_star : option (qty R)) (av pv : option R) (mp : R) : res (R * R * R) :=
  match av, pv with
  | Some av, Some pv =>
      if negb (is_none rho_star) || negb (is_none m_star) then Err ValueError
      else rs <- (match r_star with None => Ok 1 | Some q => to_unit q (u_R_sun k) end) ;;
           Ok ((4 * PI * PI * npw av 3 / (G_grav k * npw pv 2) - mp) / (4 * PI * npw rs 3 / 3), rs, 4 * PI * PI * npw av 3 / (G_grav k * npw pv 2) - mp)
  | _, _ =>
      let both_none := is_none r_star && is_none m_star in
      let r_star' := if both_none then Some (plain 1) else r_star in
      let m_star' := if both_none && is_none rho_star then Some (plain 1) else m_star in
      if negb (Nat.eqb (b2n (is_none rho_star) + b2n (is_none r_star') + b2n (is_none m_star')) 1) then Err ValueError
      else
        rho <- (match rho_star with
                | None => Ok None
                | Some q => match qu q with Some _ => rmap Some (to_unit q (u_rho_sun k)) | None => Ok (Some (qv q / gcc_per_sun k)) end
                end) ;;
        rs <- opt_to_unit r_star' (u_R_sun k) ;;
        ms <- opt_to_unit m_star' (u_M_sun k) ;;
        match rho, rs, ms with
        | None, Some r, Some m => Ok (3 * m / (4 * PI * npw r 3), r, m)
        | Some rho, None, Some m => Ok (rho, Rpowr (3 * m / (4 * PI * rho)) (1 / 3), m)
        | Some rho, Some r, None => Ok (rho, r, 4 * PI * npw r 3 * rho / 3)
        | _, _, _ => Err TypeErr
        end
  end.
Definition orbit_of (st : R * R * R) (av pv : option R) (mp : R) : res (R * R * R * R * R * R) :=
  let '(rho, rs, ms) := st in
  match av, pv with
  | None, Some p => Ok (Rpowr (G_grav k * (ms + mp) * npw p 2 / (4 * npw PI 2)) (1 / 3), p, rho * gcc_per_sun k, rs, ms, mp)
  | Some av, None => Ok (av, 2 * PI * Rpowr av (3 / 2) / sqrt (G_grav k * (ms + mp)), rho * gcc_per_sun k, rs, ms, mp)
  | Some av, Some p => Ok (av, p, rho * gcc_per_sun k, rs, ms, mp)
  | None, None => Err ValueError
  end.
Lemma inputs_split a p rho rs ms mp : consistent_inputs k a p rho rs ms mp =
  if is_none a && is_none p then Err ValueError else
  m <- opt_to_unit mp (u_M_sun k) ;; av <- opt_to_unit a (u_R_sun k) ;; pv <- opt_to_unit p (u_day k) ;;
  st <- star_of rho rs ms av pv (mass_of m av pv) ;; orbit_of st av pv (mass_of m av pv).
Proof. reflexivity. Qed.

Lemma npw_tends us u n : Un_cv us u -> Un_cv (fun i => npw (us i) n) (npw u n).
Proof. intro C. rewrite npw_R. apply cv_ext with (u := fun i => us i ^ n). { intro i. rewrite npw_R. reflexivity. } apply (cv_app (fun x => x ^ n)); [|exact C]. apply derivable_continuous_pt, derivable_pt_pow. Qed.
Lemma npw_pos u n : 0 < u -> 0 < npw u n.
Proof. intro H. rewrite npw_R. apply pow_lt. exact H. Qed.

Definition three_tend (vs : nat -> R * R * R) (v : R * R * R) : Prop := vec_tends vs v.

Lemma star_tends rhos rss mss avs pvs mps rho rs ms av pv mp v :
  given_tends qty_tends rhos rho -> given_tends qty_tends rss rs -> given_tends qty_tends mss ms -> given_tends Un_cv avs av -> given_tends Un_cv pvs pv -> Un_cv mps mp ->
  star_of rho rs ms av pv mp = Ok v -> 
  exists vs, (forall n, star_of (rhos n) (rss n) (mss n) (avs n) (pvs n) (mps n) = Ok (vs n)) /\ (0 < vy v -> (forall p, pv = Some p -> 0 < p) -> vec_tends vs v).
Proof.
  intros Crho Crs Cms Cav Cpv Cmp H. assert (Hpi := PI_pos). assert (HG := ok_G _ kok).
  assert (Nrho := given_none _ _ _ Crho). assert (Nms := given_none _ _ _ Cms). assert (Nrs := given_none _ _ _ Crs).
  assert (Dec : (exists a p, av = Some a /\ pv = Some p) \/ ((av = None \/ pv = None))).
  { destruct av, pv; eauto. }
  destruct Dec as [(a & p & -> & ->)|Dec].
  - destruct Cav as (aq & Ea & Ca), Cpv as (pq & Ep & Cp). unfold star_of in H.
    destruct (negb (is_none rho) || negb (is_none ms)) eqn:E0; [discriminate|].
    inv_bind H. apply Ok_inj in H. subst v. rename v0 into r.
    assert (R : exists rq, (forall n, (match rss n with None => Ok 1 | Some q => to_unit q (u_R_sun k) end) = Ok (rq n)) /\ Un_cv rq r).
    { destruct rs as [q|].
      - destruct Crs as (qs & Eq & Cq). destruct (to_unit_tends _ _ _ _ Cq E) as (rq & Er & Cr). exists rq. split; [|exact Cr]. intro n. rewrite Eq. apply Er.
      - apply Ok_inj in E. subst r. exists (fun _ => 1). split; [|apply cv_const]. intro n. cbn in Crs. rewrite Crs. reflexivity. }
    destruct R as (rq & Er & Cr). eexists. split.
    { intro n. unfold star_of. rewrite Nrho, Nms, E0, Ea, Ep, Er. cbn [rbind]. reflexivity. }
    intros Hr Hp. specialize (Hp p eq_refl). unfold vy in Hr. cbn [fst snd] in Hr.
    assert (P2 := npw_pos p 2 Hp). assert (R3 := npw_pos r 3 Hr).
    assert (C1 := npw_tends _ _ 3 Ca). assert (C2 := npw_tends _ _ 2 Cp). assert (C3 := npw_tends _ _ 3 Cr).
    unfold vec_tends, vx, vy, vz. cbn [fst snd]. split; [|split]; cv; nra.
  - assert (E0 : star_of rho rs ms av pv mp = star_of rho rs ms None None 0). { unfold star_of. destruct av, pv; try reflexivity. destruct Dec; discriminate. }
    assert (En : forall n, star_of (rhos n) (rss n) (mss n) (avs n) (pvs n) (mps n) = star_of (rhos n) (rss n) (mss n) None None 0).
    { intro n. unfold star_of. destruct Dec as [-> | ->]; [cbn in Cav; rewrite Cav|cbn in Cpv; rewrite Cpv]; [reflexivity|]. destruct (avs n); reflexivity. }
    rewrite E0 in H. clear E0 Cav Cpv Cmp Dec. revert H. unfold star_of at 1.
    set (rs' := if is_none rs && is_none ms then Some (plain 1) else rs). set (ms' := if (is_none rs && is_none ms) && is_none rho then Some (plain 1) else ms).
    assert (Crs' : given_tends qty_tends (fun n => if is_none (rss n) && is_none (mss n) then Some (plain 1) else rss n) rs').
    { unfold rs'. destruct (is_none rs && is_none ms) eqn:Z.
      - exists (fun _ => plain 1). split; [intro n; rewrite Nrs, Nms, Z; reflexivity|]. split; [reflexivity|apply cv_const].
      - destruct rs as [q|]. { destruct Crs as (w & Ew & Cw). exists w. split; [|exact Cw]. intro n. rewrite Nrs, Nms, Z. apply Ew. } intro n. rewrite Nrs, Nms, Z. apply Crs. }
    assert (Cms' : given_tends qty_tends (fun n => if (is_none (rss n) && is_none (mss n)) && is_none (rhos n) then Some (plain 1) else mss n) ms').
    { unfold ms'. destruct ((is_none rs && is_none ms) && is_none rho) eqn:Z.
      - exists (fun _ => plain 1). split; [intro n; rewrite Nrs, Nms, Nrho, Z; reflexivity|]. split; [reflexivity|apply cv_const].
      - destruct ms as [q|]. { destruct Cms as (w & Ew & Cw). exists w. split; [|exact Cw]. intro n. rewrite Nrs, Nms, Nrho, Z. apply Ew. } intro n. rewrite Nrs, Nms, Nrho, Z. apply Cms. }
    assert (Nrs' := given_none _ _ _ Crs'). assert (Nms' := given_none _ _ _ Cms').
    destruct (negb _) eqn:Z; [discriminate|]. intro H. inv_bind H. inv_bind H. inv_bind H.
    destruct (opt_unit_tends _ _ _ _ Crs' E0) as (rq & Er & Cr). destruct (opt_unit_tends _ _ _ _ Cms' E1) as (mq & Em & Cm).
    assert (RR : exists hq, (forall n, (match rhos n with None => Ok None | Some q => match qu q with Some _ => rmap Some (to_unit q (u_rho_sun k)) | None => Ok (Some (qv q / gcc_per_sun k)) end end) = Ok (hq n)) /\ given_tends Un_cv hq v0).
    { destruct rho as [q|].
      - destruct Crho as (w & Ew & [Uw Cw]). destruct (qu q) as [uu|] eqn:U.
        + destruct (to_unit q (u_rho_sun k)) as [z|] eqn:T; cbn in E; [|discriminate]. apply Ok_inj in E. subst v0.
          assert (Q : qty_tends w q). { split; [rewrite U; exact Uw|exact Cw]. }
          destruct (to_unit_tends _ _ _ _ Q T) as (zq & Ez & Cz). exists (fun n => Some (zq n)). split; [|exists zq; split; [reflexivity|exact Cz]].
          intro n. rewrite Ew, Uw, Ez. reflexivity.
        + apply Ok_inj in E. subst v0. exists (fun n => Some (qv (w n) / gcc_per_sun k)). split. { intro n. rewrite Ew, Uw. reflexivity. }
          eexists. split; [intro n; reflexivity|]. unfold Rdiv. cv.
      - apply Ok_inj in E. subst v0. exists (fun _ => None). split; [|intro; reflexivity]. intro n. cbn in Crho. rewrite Crho. reflexivity. }
    destruct RR as (hq & Eh & Ch).
    assert (Step : forall n, star_of (rhos n) (rss n) (mss n) (avs n) (pvs n) (mps n) =
       match hq n, rq n, mq n with
        | None, Some r, Some m => Ok (3 * m / (4 * PI * npw r 3), r, m)
        | Some rho, None, Some m => Ok (rho, Rpowr (3 * m / (4 * PI * rho)) (1 / 3), m)
        | Some rho, Some r, None => Ok (rho, r, 4 * PI * npw r 3 * rho / 3)
        | _, _, _ => Err TypeErr
        end).
    { intro n. rewrite En. unfold star_of. cbv zeta. rewrite Er, Em, Eh, Nrs', Nms', Nrho, Z. cbn [rbind]. reflexivity. }
    destruct v0 as [h|], v1 as [r|], v2 as [m|]; try discriminate; apply Ok_inj in H; subst v; cbn [given_tends] in Ch, Cr, Cm.
    + destruct Ch as (h' & Eh' & Ch), Cr as (r' & Er' & Cr). eexists. split. { intro n. rewrite Step, Eh', Er', Cm. reflexivity. }
      intros _ _. assert (C3 := npw_tends _ _ 3 Cr). unfold vec_tends, vx, vy, vz. cbn [fst snd]. split; [|split]; cv; lra.
    + destruct Ch as (h' & Eh' & Ch), Cm as (m' & Em' & Cm). eexists. split. { intro n. rewrite Step, Eh', Cr, Em'. reflexivity. }
      intros Hr _. unfold vy in Hr. cbn [fst snd] in Hr. assert (B := Rpowr_pos_base _ (1 / 3) ltac:(lra) Hr). assert (NZ := nz_div _ _ (Rgt_not_eq _ _ B)).
      unfold vec_tends, vx, vy, vz. cbn [fst snd]. split; [|split]; cv; assumption.
    + destruct Cr as (r' & Er' & Cr), Cm as (m' & Em' & Cm). eexists. split. { intro n. rewrite Step, Ch, Er', Em'. reflexivity. }
      intros Hr _. unfold vy in Hr. cbn [fst snd] in Hr. assert (C3 := npw_tends _ _ 3 Cr). assert (R3 := npw_pos r 3 Hr).
      unfold vec_tends, vx, vy, vz. cbn [fst snd]. split; [|split]; cv; nra.
Qed.

Lemma inputs_tend as_ ps rhos rss mss mps a p rho rs ms mp v :
  given_tends qty_tends as_ a -> given_tends qty_tends ps p -> given_tends qty_tends rhos rho -> given_tends qty_tends rss rs -> given_tends qty_tends mss ms -> given_tends qty_tends mps mp ->
  consistent_inputs k a p rho rs ms mp = Ok v ->
  exists vs, (forall n, consistent_inputs k (as_ n) (ps n) (rhos n) (rss n) (mss n) (mps n) = Ok (vs n)) /\ (six_pos v -> six_tend vs v).
Proof.
  intros Ca Cp Crho Crs Cms Cmp H. assert (Hpi := PI_pos). assert (HG := ok_G _ kok).
  assert (Na := given_none _ _ _ Ca). assert (Np := given_none _ _ _ Cp).
  rewrite inputs_split in H.
  destruct (is_none a && is_none p) eqn:E0; [discriminate|].
  inv_bind H. inv_bind H. inv_bind H. inv_bind H.
  destruct (opt_unit_tends _ _ _ _ Cmp E) as (mv & Hmv & Lmv).
  destruct (opt_unit_tends _ _ _ _ Ca E1) as (av & Hav & Lav).
  destruct (opt_unit_tends _ _ _ _ Cp E2) as (pv & Hpv & Lpv).
  rename v0 into m0, v1 into a0, v2 into p0.
  assert (M : Un_cv (fun n => mass_of (mv n) (av n) (pv n)) (mass_of m0 a0 p0)).
  { destruct m0 as [m0|]. { destruct Lmv as (q & Eq & C). apply cv_ext with (u := q); [|exact C]. intro n. rewrite Eq. reflexivity. }
    apply cv_ext with (u := fun _ => 0). { intro n. cbn in Lmv. rewrite Lmv. destruct (av n), (pv n); reflexivity. }
    destruct a0, p0; apply cv_const. }
  destruct (star_tends _ _ _ _ _ _ _ _ _ _ _ _ _ Crho Crs Cms Lav Lpv M E3) as (st & Est & Cst).
  assert (Step : forall n, consistent_inputs k (as_ n) (ps n) (rhos n) (rss n) (mss n) (mps n) = orbit_of (st n) (av n) (pv n) (mass_of (mv n) (av n) (pv n))).
  { intro n. rewrite inputs_split, Na, Np, E0, Hmv. cbn [rbind]. rewrite Hav. cbn [rbind]. rewrite Hpv. cbn [rbind]. rewrite Est. reflexivity. }
  set (mp0 := mass_of m0 a0 p0) in *. set (mps0 := fun n => mass_of (mv n) (av n) (pv n)) in *.
  assert (Step2 : forall n, consistent_inputs k (as_ n) (ps n) (rhos n) (rss n) (mss n) (mps n) = orbit_of (vx (st n), vy (st n), vz (st n)) (av n) (pv n) (mps0 n)).
  { intro n. rewrite Step. destruct (st n) as [[? ?] ?]. reflexivity. }
  clear Step. destruct v3 as [[h r] m]. unfold orbit_of in H. unfold vec_tends, vx at 2, vy at 1 3, vz at 2 in Cst. cbn [fst snd] in Cst.
  destruct a0 as [a0|]; [destruct Lav as (avs & Eav & Cav)|cbn in Lav]; (destruct p0 as [p0|]; [destruct Lpv as (pvs & Epv & Cpv)|cbn in Lpv]); [| | |discriminate]; apply Ok_inj in H; subst v.
  - eexists. split. { intro n. rewrite Step2, Eav, Epv. unfold orbit_of. reflexivity. }
    intros (Ha & Hp & Hr & Hm). destruct (Cst Hr) as (C1 & C2 & C3). { intros q Hq. inversion Hq. subst. exact Hp. }
    unfold six_tend. cbn [fst snd]. repeat apply conj; cv.
  - eexists. split. { intro n. rewrite Step2, Eav, Lpv. unfold orbit_of. reflexivity. }
    intros (Ha & Hp & Hr & Hm). destruct (Cst Hr) as (C1 & C2 & C3). { intros q Hq. discriminate. }
    assert (0 < sqrt (G_grav k * (m + mp0))) by (apply sqrt_lt_R0; nra).
    unfold six_tend. cbn [fst snd]. repeat apply conj; cv; lra.
  - eexists. split. { intro n. rewrite Step2, Lav, Epv. unfold orbit_of. reflexivity. }
    intros (Ha & Hp & Hr & Hm). destruct (Cst Hr) as (C1 & C2 & C3). { intros q Hq. inversion Hq. subst. exact Hp. }
    assert (C4 := npw_tends _ _ 2 Cpv). assert (P2 := npw_pos p0 2 Hp). assert (P3 := npw_pos PI 2 Hpi).
    unfold six_tend. cbn [fst snd]. repeat apply conj; cv; [|lra].
    apply Rdiv_lt_0_compat; [|lra]. apply Rmult_lt_0_compat; [nra|exact P2].
Qed.
End S.
