(** * Shapes of the attributes of the rounded constructor *)
From Coq Require Import Reals List Bool Arith Lia.
From Verif Require Import Num CoreOps Inst M_units M_kepler M_fin M_tensor Spec_orbit Spec_params Spec_array Spec_float Spec_float2 Spec_float3 L_shape L_float30.
Import ListNotations.

Section S.
Variable rd : rounder.
Local Instance NTr' : Num tens btens := rounded_tens rd.
Variable n : nat.
Local Notation Sn := (@Sn n _). Local Notation En := (@En n _). Local Notation QSn := (QSn n). Local Notation OSn := (OSn n). Local Notation orbit_sn := (orbit_sn n).
Lemma s_nneg (a : tens) : Sn a -> Sn (nneg a). Proof. exact (Sn_map n _ a). Qed.
Lemma s_nsqrt (a : tens) : Sn a -> Sn (nsqrt a). Proof. exact (Sn_map n _ a). Qed.
Lemma s_nsin (a : tens) : Sn a -> Sn (nsin a). Proof. exact (Sn_map n _ a). Qed.
Lemma s_ncos (a : tens) : Sn a -> Sn (ncos a). Proof. exact (Sn_map n _ a). Qed.
Lemma s_nasin (a : tens) : Sn a -> Sn (nasin a). Proof. exact (Sn_map n _ a). Qed.
Lemma s_nacos (a : tens) : Sn a -> Sn (nacos a). Proof. exact (Sn_map n _ a). Qed.
Lemma s_nexp (a : tens) : Sn a -> Sn (nexp a). Proof. exact (Sn_map n _ a). Qed.
Lemma s_nlog (a : tens) : Sn a -> Sn (nlog a). Proof. exact (Sn_map n _ a). Qed.
Lemma s_nabs (a : tens) : Sn a -> Sn (nabs a). Proof. exact (Sn_map n _ a). Qed.
Lemma s_nfloor (a : tens) : Sn a -> Sn (nfloor a). Proof. exact (Sn_map n _ a). Qed.
Lemma s_nzl (a : tens) : Sn a -> Sn (nzl a). Proof. exact (Sn_map n _ a). Qed.
Lemma s_nadd (a b : tens) : Sn a -> Sn b -> Sn (nadd a b). Proof. exact (Sn_map2 n _ a b). Qed.
Lemma s_nsub (a b : tens) : Sn a -> Sn b -> Sn (nsub a b). Proof. exact (Sn_map2 n _ a b). Qed.
Lemma s_nmul (a b : tens) : Sn a -> Sn b -> Sn (nmul a b). Proof. exact (Sn_map2 n _ a b). Qed.
Lemma s_ndiv (a b : tens) : Sn a -> Sn b -> Sn (ndiv a b). Proof. exact (Sn_map2 n _ a b). Qed.
Lemma s_natan2 (a b : tens) : Sn a -> Sn b -> Sn (natan2 a b). Proof. exact (Sn_map2 n _ a b). Qed.
Lemma s_nmod (a b : tens) : Sn a -> Sn b -> Sn (nmod a b). Proof. exact (Sn_map2 n _ a b). Qed.
Lemma s_npowr (a b : tens) : Sn a -> Sn b -> Sn (npowr a b). Proof. exact (Sn_map2 n _ a b). Qed.
Lemma s_nkepler_sin (a b : tens) : Sn a -> Sn b -> Sn (nkepler_sin a b). Proof. exact (Sn_map2 n _ a b). Qed.
Lemma s_nkepler_cos (a b : tens) : Sn a -> Sn b -> Sn (nkepler_cos a b). Proof. exact (Sn_map2 n _ a b). Qed.
Lemma s_nlit v : Sn (nlit v : tens). Proof. exact (Sn_lit n _). Qed.
Lemma s_npw (a : tens) m : Sn a -> Sn (npw a m). Proof. intro H. induction m as [|m IH]; [exact (s_nlit 1)|]. destruct m; [exact H|]. cbn [npw] in *. apply s_nmul; assumption. Qed.
Lemma e_div (a b : tens) : Sn a -> En b -> En (a / b)%num. Proof. exact (En_map2r n _ a b). Qed.
Lemma e_mull (a b : tens) : En a -> Sn b -> En (a * b)%num. Proof. exact (En_map2l n _ a b). Qed.
Ltac sn := first [assumption | apply s_nlit | apply (En_Sn n); assumption | apply s_npw; sn | apply s_nadd; sn | apply s_nsub; sn | apply s_nmul; sn | apply s_ndiv; sn | apply s_natan2; sn | apply s_nmod; sn | apply s_npowr; sn | apply s_nkepler_sin; sn | apply s_nkepler_cos; sn | apply s_nneg; sn | apply s_nsqrt; sn | apply s_nsin; sn | apply s_ncos; sn | apply s_nasin; sn | apply s_nacos; sn | apply s_nexp; sn | apply s_nlog; sn | apply s_nabs; sn | apply s_nfloor; sn | apply s_nzl; sn].
Lemma to_unit_sn q u v : Sn (qv q) -> to_unit q u = Ok v -> Sn v.
Proof.
  unfold to_unit. intros H. destruct (qu q) as [w|]; [destruct (uto w u); [|discriminate]|]; cbn [rmap]; intro E; inversion E; subst; sn.
Qed.
Lemma to_unit_en q u v : En (qv q) -> to_unit q u = Ok v -> En v.
Proof.
  unfold to_unit. intros H. destruct (qu q) as [w|]; [destruct (uto w u); [|discriminate]|]; cbn [rmap]; intro E; inversion E; subst.
  - apply e_mull; [assumption|apply s_nlit].
  - assumption.
Qed.
Lemma opt_to_unit_sn q u v : QSn q -> opt_to_unit q u = Ok v -> OSn v.
Proof.
  destruct q as [q|]; cbn; intros H E; [|inversion E; exact I].
  destruct (to_unit q u) eqn:Et; [|discriminate]. inversion E; subst. apply (to_unit_sn q u _ H Et).
Qed.

Ltac ib H := match type of H with rbind ?e _ = Ok _ => let v := fresh "v" in let E := fresh "E" in
  destruct e as [v|] eqn:E; cbn [rbind] in H; [|discriminate H] end.

Lemma ci_sn k a p rho r m mp A P RHO RS MS MP :
  QSn a -> QSn p -> QSn rho -> QSn r -> QSn m -> QSn mp ->
  consistent_inputs k a p rho r m mp = Ok (A, P, RHO, RS, MS, MP) ->
  Sn A /\ Sn P /\ Sn RS /\ Sn MS /\ Sn MP /\
  (match p, a with Some p, _ => En (qv p) | None, Some a => En (qv a) | None, None => True end -> En P).
Proof.
  intros Ha Hp Hrho Hr Hm Hmp H. unfold consistent_inputs in H.
  destruct (is_none a && is_none p) eqn:Hn; [discriminate|].
  ib H. ib H. ib H. ib H. destruct v2 as [[rho' rs'] ms'].
  assert (Sv := opt_to_unit_sn _ _ _ Hmp E). assert (Sv0 := opt_to_unit_sn _ _ _ Ha E0). assert (Sv1 := opt_to_unit_sn _ _ _ Hp E1).
  set (mp' := match v, v0, v1 with
    | Some m0, _, _ => m0 | None, Some x, _ => nzl x | None, None, Some p0 => nzl p0 | None, None, None => nlit 0 end) in *.
  assert (Smp : Sn mp').
  { unfold mp'. destruct v; [assumption|]. destruct v0; [sn|]. destruct v1; sn. }
  assert (EnP : forall q, p = Some q -> En (qv q) -> forall pv, v1 = Some pv -> En pv).
  { intros q -> Hq pv ->. cbn in E1. destruct (to_unit q (u_day k)) eqn:Et; [|discriminate]. inversion E1; subst. apply (to_unit_en q (u_day k) _ Hq Et). }
  assert (EnA : forall q, a = Some q -> En (qv q) -> forall pv, v0 = Some pv -> En pv).
  { intros q -> Hq pv ->. cbn in E0. destruct (to_unit q (u_R_sun k)) eqn:Et; [|discriminate]. inversion E0; subst. apply (to_unit_en q (u_R_sun k) _ Hq Et). }
  assert (Hpn : v1 = None <-> p = None).
  { destruct p as [q|]; cbn in E1; [destruct (to_unit q (u_day k)); [|discriminate]|]; inversion E1; split; congruence. }
  assert (Han : v0 = None <-> a = None).
  { destruct a as [q|]; cbn in E0; [destruct (to_unit q (u_R_sun k)); [|discriminate]|]; inversion E0; split; congruence. }
  assert (Star : Sn rs' /\ Sn ms').
  { assert (Hsplit : (exists av pv, v0 = Some av /\ v1 = Some pv) \/ ~ (exists av pv, v0 = Some av /\ v1 = Some pv)).
    { destruct v0, v1; try (left; do 2 eexists; split; reflexivity); right; intros (? & ? & ? & ?); discriminate. }
    destruct Hsplit as [(av & pv & -> & ->)|Hnb].
    - destruct (negb (is_none rho) || negb (is_none m)); [discriminate|]. ib E2. inversion E2; subst; clear E2.
      cbn in Sv0, Sv1. split; [|sn].
      destruct r as [r|]; [apply (to_unit_sn r _ _ Hr E3)|inversion E3; sn].
    - assert (E2' : (let both_none := is_none r && is_none m in
             let r_star' := if both_none then Some (plain (nlit 1)) else r in
             let m_star' := if both_none && is_none rho then Some (plain (nlit 1)) else m in
             if negb (Nat.eqb (b2n (is_none rho) + b2n (is_none r_star') + b2n (is_none m_star')) 1)
             then Err ValueError
             else
               rho <- (match rho with
                       | None => Ok None
                       | Some q =>
                           match qu q with
                           | Some _ => rmap Some (to_unit q (u_rho_sun k))
                           | None => Ok (Some (qv q / nlit (gcc_per_sun k)))%num
                           end
                       end) ;;
               rs <- opt_to_unit r_star' (u_R_sun k) ;;
               ms <- opt_to_unit m_star' (u_M_sun k) ;;
               match rho, rs, ms with
               | None, Some r, Some m =>
                   Ok (nlit 3 * m / (nlit 4 * nlit PI * r ^ 3), r, m)%num
               | Some rho, None, Some m =>
                   Ok (rho, npowr (nlit 3 * m / (nlit 4 * nlit PI * rho)) (nlit (1 / 3)), m)%num
               | Some rho, Some r, None =>
                   Ok (rho, r, nlit 4 * nlit PI * r ^ 3 * rho / nlit 3)%num
               | _, _, _ => Err TypeErr
               end) = Ok (rho', rs', ms')).
      { destruct v0, v1; try exact E2. exfalso. apply Hnb. do 2 eexists; split; reflexivity. }
      clear E2. cbv zeta in E2'.
      set (rq := if is_none r && is_none m then Some (plain (nlit 1)) else r) in *.
      set (mq := if is_none r && is_none m && is_none rho then Some (plain (nlit 1)) else m) in *.
      assert (Hrq : QSn rq) by (unfold rq; destruct (is_none r && is_none m); [cbn; sn|assumption]).
      assert (Hmq : QSn mq) by (unfold mq; destruct (is_none r && is_none m && is_none rho); [cbn; sn|assumption]).
      destruct (negb _); [discriminate|].
      destruct (match rho with None => Ok None | Some q => _ end) as [rh|] eqn:Erho; [|discriminate]. cbn [rbind] in E2'.
      destruct (opt_to_unit rq (u_R_sun k)) as [rs|] eqn:Ers; [|discriminate]. cbn [rbind] in E2'.
      destruct (opt_to_unit mq (u_M_sun k)) as [ms|] eqn:Ems; [|discriminate]. cbn [rbind] in E2'.
      assert (Srs := opt_to_unit_sn _ _ _ Hrq Ers). assert (Sms := opt_to_unit_sn _ _ _ Hmq Ems).
      assert (Srh : OSn rh).
      { destruct rho as [q|]; [|inversion Erho; exact I]. cbn in Hrho. destruct (qu q) eqn:Eq.
        - destruct (to_unit q (u_rho_sun k)) eqn:Et; [|discriminate]. inversion Erho; subst. apply (to_unit_sn q _ _ Hrho Et).
        - inversion Erho; subst. cbn [OSn]. sn. }
      destruct rh as [rh|], rs as [rs|], ms as [ms|]; try discriminate E2'; cbn [OSn] in *; inversion E2'; subst; clear E2'; split; sn. }
  destruct Star as [Srs Sms].
  destruct v0 as [av|], v1 as [pv|]; cbn [OSn] in *; try discriminate H; apply (f_equal (fun r => match r with Ok v => v | Err _ => (A, P, RHO, RS, MS, MP) end)) in H;
    inversion H; subst; clear H.
  - do 5 (split; [first [assumption|sn]|]). intro Hs.
    destruct p as [p|]; [apply (EnP p eq_refl Hs _ eq_refl)|]. destruct Hpn as [_ K]. discriminate (K eq_refl).
  - do 5 (split; [first [assumption|sn]|]). intro Hs.
    destruct p as [p|]; [destruct Hpn as [K _]; discriminate (K eq_refl)|].
    destruct a as [a|]; [|destruct Han as [_ K]; discriminate (K eq_refl)].
    assert (En A) by apply (EnA a eq_refl Hs _ eq_refl).
    apply En_map2l; [|sn]. apply En_map2r; [sn|]. apply En_map2l; [assumption|sn].
  - do 5 (split; [first [assumption|sn]|]). intro Hs.
    destruct p as [p|]; [apply (EnP p eq_refl Hs _ eq_refl)|]. destruct Hpn as [_ K]. discriminate (K eq_refl).
Qed.

Lemma kep_init_sn k (x : kargs tens) o : ka_duration x = None -> planet_args n x -> kep_init k x = Ok o -> orbit_sn o /\ En (o_n o) /\ En (o_period o).
Proof.
  intros Ed P0 H. destruct P0 as [H1 H2 H3 H4 H5 H6 H7 H8 H9 H10 H11 H12 H13 H14 H15 H16 H17 H18].
  assert (H18' : match ka_period x, ka_a x with Some p, _ => En (qv p) | None, Some a => En (qv a) | None, None => True end).
  { destruct (ka_period x) as [p|]; [|destruct (ka_a x) as [a|]; [|exact I]].
    - split; [apply (pp_sn n _ H1)|]. destruct H18 as [E|[E _]]; auto.
    - split; [apply (pp_sn n _ H2)|]. destruct H18 as [E|[E _]]; auto. }
  clear H18. rename H18' into H18.
  apply (qpp_sn n) in H1, H2, H7, H13, H14, H15, H16. apply (opp_sn n) in H3, H4, H5, H6, H8, H9, H10, H11, H12, H17.
  unfold kep_init in H. ib H. destruct v as [mpl rho]. rewrite (no_duration x Ed) in H. cbn [rbind] in H.
  ib H. destruct v as [[[[[A P] RHO] RS] MS] MP].
  ib H. rename v into ed. ib H. destruct v as [[[b ci] inc] durattr]. ib H. destruct v as [t0 tp].
  apply (f_equal (fun r => match r with Ok v => v | Err _ => o end)) in H. subst o.
  assert (U : QSn mpl /\ QSn rho).
  { revert E. unfold kep_units. destruct (ka_m_planet_units x); [destruct (ka_m_planet x) as [[? [?|]]|]; try discriminate|]; cbn [rbind rmap with_unit qu];
    (destruct (ka_rho_star_units x); [destruct (ka_rho_star x) as [[? [?|]]|]; try discriminate|]); cbn [rbind rmap with_unit qu]; intro Q; inversion Q; subst; split; assumption. }
  destruct U as [U1 U2].
  destruct (ci_sn k (ka_a x) (ka_period x) rho (ka_r_star x) (ka_m_star x) mpl A P RHO RS MS MP H2 H1 U2 H15 H14 U1 E0) as (SA & SP & SRS & SMS & SMP & EP).
  specialize (EP H18).
  assert (Sed : match ed with None => True | Some d => Sn (e_ecc d) /\ Sn (e_omega d) /\ Sn (e_cosw d) /\ Sn (e_sinw d) end).
  { revert E1. unfold kep_omega. destruct (ka_ecc x) as [e|]; [|intro Q; inversion Q; exact I].
    destruct (ka_omega x) as [w|].
    - destruct (_ && _); [discriminate|]. intro Q; inversion Q; subst. cbn [e_ecc e_omega e_cosw e_sinw]. cbn in H8, H9. repeat split; sn.
    - destruct (ka_sin_omega x); [|discriminate]. destruct (ka_cos_omega x); [|discriminate].
      intro Q; inversion Q; subst. cbn [e_ecc e_omega e_cosw e_sinw]. cbn in H8, H10, H11. repeat split; sn. }
  assert (EnN : En (nlit 2 * nlit PI / P)%num) by (apply e_div; [sn|assumption]).
  set (fac := match ed with None => _ | Some d => _ end) in E2.
  assert (Sfac : Sn fac) by (unfold fac; destruct ed as [d|]; [destruct Sed as (? & ? & ? & ?)|]; sn).
  set (M0 := match ed with None => _ | Some d => kep_M0 d end) in *.
  assert (SM0 : Sn M0).
  { unfold M0. destruct ed as [d|]; [destruct Sed as (? & ? & ? & ?); unfold kep_M0|]; sn. }
  assert (Sinc : Sn b /\ Sn ci /\ Sn inc).
  { revert E2. unfold kep_incl. destruct (ka_b x) as [bb|].
    { destruct (_ || _); [discriminate|]. intro Q; inversion Q; subst. cbn in H6. repeat split; sn. }
    destruct (ka_incl x) as [ii|].
    { destruct (negb _); [discriminate|]. intro Q; inversion Q; subst. cbn in H5. repeat split; sn. }
    intro Q; inversion Q; subst. repeat split; sn. }
  destruct Sinc as (Sb & Sci & Sii).
  assert (St : Sn t0 /\ Sn tp).
  { revert E3. unfold kep_times. destruct (ka_t0 x), (ka_tper x); cbn in H3, H4; intro Q; inversion Q; subst; split; sn. }
  destruct St as [St0 Stp].
  split; [|split; [exact EnN|exact EP]].
  constructor; cbn [o_a o_period o_rho_star o_r_star o_m_star o_m_planet o_m_total o_n o_a_star
    o_a_planet o_K0 o_Omega o_ecc o_M0 o_dcosidb o_b o_cos_incl o_incl o_sin_incl o_t0 o_tper o_tref o_jac o_duration]; try assumption; try sn.
  - destruct ed as [d|]; [destruct Sed as (? & ? & ? & ?)|]; sn.
  - destruct ed as [d|]; [destruct Sed as (? & ? & ? & ?); auto|exact I].
  - destruct (ka_Omega x) as [w|]; [cbn [O_cos O_sin]; cbn in H12; split; sn|exact I].
  - destruct ed as [d|]; [destruct Sed as (? & ? & ? & ?); auto|exact I].
  - destruct (ka_Omega x) as [w|]; [cbn [O_Omega]; cbn in H12; sn|exact I].
Qed.

End S.
