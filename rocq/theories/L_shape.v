(** * Shapes of the results for a system of n planets *)
From Coq Require Import Reals List Bool Arith Lia.
From Verif Require Import Num CoreOps Inst M_units M_kepler M_fin M_tensor Spec_orbit Spec_params Spec_array.
Import ListNotations.

Section S.
Variables n N : nat.

Definition cst {A} (a : arr A) : Prop := forall i i', aget a i = aget a i'.
Definition lst {A} (a : arr A) : Prop := forall i i', i O = i' O -> aget a i = aget a i'.
Definition Sn {A} (a : arr A) : Prop := (ash a = Ok [] /\ cst a) \/ (ash a = Ok [n] /\ lst a).
Definition En {A} (a : arr A) : Prop := Sn a /\ (ash a = Ok [n] \/ n = 1%nat).
Definition T1 {A} (a : arr A) : Prop := ash a = Ok [1%nat; N] \/ ash a = Ok [n; N].
Definition EN {A} (a : arr A) : Prop := ash a = Ok [n; N].

Lemma bc_nn : bc [n] [n] = Some [n].
Proof. cbn. rewrite Nat.eqb_refl. reflexivity. Qed.
Lemma bc_NN : bc [n; N] [n; N] = Some [n; N].
Proof. cbn. rewrite !Nat.eqb_refl. reflexivity. Qed.
Lemma bc_nN : bc [n] [n; N] = Some [n; N].
Proof. cbn. rewrite !Nat.eqb_refl. reflexivity. Qed.
Lemma bc_Nn : bc [n; N] [n] = Some [n; N].
Proof. cbn. rewrite !Nat.eqb_refl. reflexivity. Qed.
Lemma bc_1n : bc [1%nat; N] [n] = Some [n; N].
Proof. cbn. destruct n as [|[|?]]; reflexivity. Qed.
Lemma bc_n1 : bc [n] [1%nat; N] = Some [n; N].
Proof. cbn. destruct n as [|[|?]]; reflexivity. Qed.
Lemma bc_11 : bc [1%nat; N] [1%nat; N] = Some [1%nat; N].
Proof. cbn. rewrite Nat.eqb_refl. reflexivity. Qed.
Lemma bc_1N : bc [1%nat; N] [n; N] = Some [n; N].
Proof. cbn. rewrite Nat.eqb_refl. destruct n as [|[|?]]; reflexivity. Qed.
Lemma bc_N1 : bc [n; N] [1%nat; N] = Some [n; N].
Proof. cbn. rewrite Nat.eqb_refl. destruct n as [|[|?]]; reflexivity. Qed.

Lemma cst_lst {A} (a : arr A) : cst a -> lst a. Proof. intros H i i' _. apply H. Qed.
Lemma cst_map {A C} (f : A -> C) a : cst a -> cst (amap f a).
Proof. intros H i i'. cbn. rewrite (H i i'). reflexivity. Qed.
Lemma lst_map {A C} (f : A -> C) a : lst a -> lst (amap f a).
Proof. intros H i i' E. cbn. rewrite (H i i' E). reflexivity. Qed.
Lemma cst_map2 {A C D} (f : A -> C -> D) a b : cst a -> cst b -> cst (amap2 f a b).
Proof. intros H1 H2 i i'. cbn. rewrite (H1 i i'), (H2 i i'). reflexivity. Qed.
Lemma lst_map2 {A C D} (f : A -> C -> D) a b : lst a -> lst b -> lst (amap2 f a b).
Proof. intros H1 H2 i i' E. cbn. rewrite (H1 i i' E), (H2 i i' E). reflexivity. Qed.
Lemma cst_map3 {A C D G} (f : A -> C -> D -> G) a b c : cst a -> cst b -> cst c -> cst (amap3 f a b c).
Proof. intros H1 H2 H3 i i'. cbn. rewrite (H1 i i'), (H2 i i'), (H3 i i'). reflexivity. Qed.
Lemma lst_map3 {A C D G} (f : A -> C -> D -> G) a b c : lst a -> lst b -> lst c -> lst (amap3 f a b c).
Proof. intros H1 H2 H3 i i' E. cbn. rewrite (H1 i i' E), (H2 i i' E), (H3 i i' E). reflexivity. Qed.
Ltac wl := first [ apply cst_map | apply cst_map2 | apply cst_map3 | apply lst_map | apply lst_map2 | apply lst_map3 ];
  try assumption; try (apply cst_lst; assumption).
Ltac bcs := unfold Sn, T1, EN; intros;
  repeat match goal with H : _ \/ _ |- _ => destruct H | H : _ /\ _ |- _ => destruct H end;
  cbn [ash amap amap2 amap3 bcr alit apadr];
  repeat match goal with H : ash _ = _ |- _ => rewrite H; clear H end;
  cbn [bcr rmap]; rewrite ?bc_nn, ?bc_NN, ?bc_nN, ?bc_Nn, ?bc_1n, ?bc_n1, ?bc_11, ?bc_1N, ?bc_N1;
  cbn [bc bcr]; rewrite ?Nat.eqb_refl; cbn [bc bcr]; rewrite ?Nat.eqb_refl; cbn [bc bcr];
  first [ solve [auto] | solve [left; split; [reflexivity|first [wl|intros ? ?; reflexivity]]] | solve [right; split; [reflexivity|wl]] | solve [split; [reflexivity|wl]] ].

Lemma Sn_lit {A} (v : A) : Sn (alit v). Proof. bcs. Qed.
Lemma Sn_map {A C} (f : A -> C) a : Sn a -> Sn (amap f a). Proof. bcs. Qed.
Lemma Sn_map2 {A C D} (f : A -> C -> D) a b : Sn a -> Sn b -> Sn (amap2 f a b). Proof. bcs. Qed.
Lemma En_map {A C} (f : A -> C) a : En a -> En (amap f a).
Proof. intros [S E]. split; [apply Sn_map; exact S|exact E]. Qed.
Lemma En_map2l {A C D} (f : A -> C -> D) a b : En a -> Sn b -> En (amap2 f a b).
Proof.
  intros [S [E|E]] Sb; (split; [apply Sn_map2; assumption|]); [left|right; exact E].
  destruct Sb as [[Eb _]|[Eb _]]; cbn [ash amap2]; rewrite E, Eb; cbn [bcr bc]; [reflexivity|]. rewrite Nat.eqb_refl. reflexivity.
Qed.
Lemma En_map2r {A C D} (f : A -> C -> D) a b : Sn a -> En b -> En (amap2 f a b).
Proof.
  intros Sa [S [E|E]]; (split; [apply Sn_map2; assumption|]); [left|right; exact E].
  destruct Sa as [[Ea _]|[Ea _]]; cbn [ash amap2]; rewrite E, Ea; cbn [bcr bc]; [reflexivity|]. rewrite Nat.eqb_refl. reflexivity.
Qed.
Lemma En_Sn {A} (a : arr A) : En a -> Sn a. Proof. intros [S _]. exact S. Qed.
Lemma T1_map2l {A C D} (f : A -> C -> D) a b : T1 a -> Sn b -> T1 (amap2 f a b). Proof. bcs. Qed.
Lemma T1_map2r {A C D} (f : A -> C -> D) a b : Sn a -> T1 b -> T1 (amap2 f a b). Proof. bcs. Qed.
Lemma T1_En {A C D} (f : A -> C -> D) a b : T1 a -> En b -> EN (amap2 f a b).
Proof.
  intros Ta [S [E|E]]; unfold EN; cbn [ash amap2].
  - rewrite E. destruct Ta as [-> | ->]; cbn [bcr]; rewrite ?bc_1n, ?bc_Nn; reflexivity.
  - destruct S as [[-> _]|[-> _]]; destruct Ta as [-> | ->]; cbn [bcr]; rewrite ?bc_1n, ?bc_Nn; cbn [bc]; rewrite ?E; reflexivity.
Qed.
Lemma EN_map {A C} (f : A -> C) a : EN a -> EN (amap f a). Proof. bcs. Qed.
Lemma EN_map2 {A C D} (f : A -> C -> D) a b : EN a -> EN b -> EN (amap2 f a b). Proof. bcs. Qed.
Lemma EN_map2l {A C D} (f : A -> C -> D) a b : EN a -> Sn b -> EN (amap2 f a b). Proof. bcs. Qed.
Lemma EN_map2r {A C D} (f : A -> C -> D) a b : Sn a -> EN b -> EN (amap2 f a b). Proof. bcs. Qed.
Lemma EN_T1 {A C D} (f : A -> C -> D) a b : EN a -> T1 b -> EN (amap2 f a b). Proof. bcs. Qed.
Lemma T1_EN {A C D} (f : A -> C -> D) a b : T1 a -> EN b -> EN (amap2 f a b). Proof. bcs. Qed.
Lemma EN_map3 {A C D G} (f : A -> C -> D -> G) a b c : EN a -> EN b -> EN c -> EN (amap3 f a b c). Proof. bcs. Qed.
Lemma Sn_map3 {A C D G} (f : A -> C -> D -> G) a b c : Sn a -> Sn b -> Sn c -> Sn (amap3 f a b c).
Proof. bcs. Qed.
Lemma padr_T1 {A} (t : arr A) : ash t = Ok [N] -> T1 (apadr t). Proof. bcs. Qed.

(** closing tactics *)
Ltac sn := first
  [ assumption
  | apply (Sn_lit)
  | apply En_Sn; assumption
  | apply Sn_map; sn | apply Sn_map2; sn | apply Sn_map3; sn ].

Definition OSn (a : option tens) := match a with None => True | Some v => Sn v end.
Definition QSn (a : option (qty tens)) := match a with None => True | Some v => Sn (qv v) end.

Record orbit_sn (o : orbit tens) : Prop := {
  os_a : Sn (o_a o); os_period : Sn (o_period o); os_r : Sn (o_r_star o); os_ms : Sn (o_m_star o);
  os_mp : Sn (o_m_planet o); os_mt : Sn (o_m_total o); os_n : Sn (o_n o); os_as : Sn (o_a_star o); os_ap : Sn (o_a_planet o);
  os_K0 : Sn (o_K0 o); os_M0 : Sn (o_M0 o); os_b : Sn (o_b o); os_ci : Sn (o_cos_incl o); os_si : Sn (o_sin_incl o);
  os_t0 : Sn (o_t0 o); os_tref : Sn (o_tref o);
  os_ecc : match o_ecc o with None => True | Some d => Sn (e_ecc d) /\ Sn (e_cosw d) /\ Sn (e_sinw d) end;
  os_Om : match o_Omega o with None => True | Some w => Sn (O_cos w) /\ Sn (O_sin w) end;
  os_tper : Sn (o_tper o); os_incl : Sn (o_incl o);
  os_eccw : match o_ecc o with None => True | Some d => Sn (e_omega d) end;
  os_Omw : match o_Omega o with None => True | Some w => Sn (O_Omega w) end
}.

Lemma to_unit_sn q u v : Sn (qv q) -> to_unit q u = Ok v -> Sn v.
Proof.
  unfold to_unit. intros H. destruct (qu q) as [w|]; [destruct (uto w u); [|discriminate]|]; cbn [rmap]; intro E; inversion E; subst; sn.
Qed.
Lemma to_unit_en q u v : En (qv q) -> to_unit q u = Ok v -> En v.
Proof.
  unfold to_unit. intros H. destruct (qu q) as [w|]; [destruct (uto w u); [|discriminate]|]; cbn [rmap]; intro E; inversion E; subst.
  - apply En_map2l; [assumption|apply Sn_lit].
  - assumption.
Qed.
Lemma opt_to_unit_sn q u v : QSn q -> opt_to_unit q u = Ok v -> OSn v.
Proof.
  destruct q as [q|]; cbn; intros H E; [|inversion E; exact I].
  destruct (to_unit q u) eqn:Et; [|discriminate]. inversion E; subst. apply (to_unit_sn q u _ H Et).
Qed.

Ltac ib H := match type of H with rbind ?e _ = Ok _ => let v := fresh "v" in let E := fresh "E" in
  destruct e as [v|] eqn:E; cbn [rbind] in H; [|discriminate H] end.

Lemma ci_sn k a p rho r m mp A P RHO RS MS MP :
  QSn a -> QSn p -> QSn rho -> QSn r -> QSn m -> QSn mp ->
  consistent_inputs k a p rho r m mp = Ok (A, P, RHO, RS, MS, MP) ->
  Sn A /\ Sn P /\ Sn RS /\ Sn MS /\ Sn MP /\
  (match p, a with Some p, _ => En (qv p) | None, Some a => En (qv a) | None, None => True end -> En P).
Proof.
  intros Ha Hp Hrho Hr Hm Hmp H. unfold consistent_inputs in H.
  destruct (is_none a && is_none p) eqn:Hn; [discriminate|].
  ib H. ib H. ib H. ib H. destruct v2 as [[rho' rs'] ms'].
  assert (Sv := opt_to_unit_sn _ _ _ Hmp E). assert (Sv0 := opt_to_unit_sn _ _ _ Ha E0). assert (Sv1 := opt_to_unit_sn _ _ _ Hp E1).
  set (mp' := match v, v0, v1 with
    | Some m0, _, _ => m0 | None, Some x, _ => nzl x | None, None, Some p0 => nzl p0 | None, None, None => nlit 0 end) in *.
  assert (Smp : Sn mp').
  { unfold mp'. destruct v; [assumption|]. destruct v0; [sn|]. destruct v1; sn. }
  assert (EnP : forall q, p = Some q -> En (qv q) -> forall pv, v1 = Some pv -> En pv).
  { intros q -> Hq pv ->. cbn in E1. destruct (to_unit q (u_day k)) eqn:Et; [|discriminate]. inversion E1; subst. apply (to_unit_en q (u_day k) _ Hq Et). }
  assert (EnA : forall q, a = Some q -> En (qv q) -> forall pv, v0 = Some pv -> En pv).
  { intros q -> Hq pv ->. cbn in E0. destruct (to_unit q (u_R_sun k)) eqn:Et; [|discriminate]. inversion E0; subst. apply (to_unit_en q (u_R_sun k) _ Hq Et). }
  assert (Hpn : v1 = None <-> p = None).
  { destruct p as [q|]; cbn in E1; [destruct (to_unit q (u_day k)); [|discriminate]|]; inversion E1; split; congruence. }
  assert (Han : v0 = None <-> a = None).
  { destruct a as [q|]; cbn in E0; [destruct (to_unit q (u_R_sun k)); [|discriminate]|]; inversion E0; split; congruence. }
  assert (Star : Sn rs' /\ Sn ms').
  { assert (Hsplit : (exists av pv, v0 = Some av /\ v1 = Some pv) \/ ~ (exists av pv, v0 = Some av /\ v1 = Some pv)).
    { destruct v0, v1; try (left; do 2 eexists; split; reflexivity); right; intros (? & ? & ? & ?); discriminate. }
    destruct Hsplit as [(av & pv & -> & ->)|Hnb].
    - destruct (negb (is_none rho) || negb (is_none m)); [discriminate|]. ib E2. inversion E2; subst; clear E2.
      cbn in Sv0, Sv1. split; [|sn].
      destruct r as [r|]; [apply (to_unit_sn r _ _ Hr E3)|inversion E3; sn].
    - assert (E2' : (let both_none := is_none r && is_none m in
             let r_star' := if both_none then Some (plain (nlit 1)) else r in
             let m_star' := if both_none && is_none rho then Some (plain (nlit 1)) else m in
             if negb (Nat.eqb (b2n (is_none rho) + b2n (is_none r_star') + b2n (is_none m_star')) 1)
             then Err ValueError
             else
               rho <- (match rho with
                       | None => Ok None
                       | Some q =>
                           match qu q with
                           | Some _ => rmap Some (to_unit q (u_rho_sun k))
                           | None => Ok (Some (qv q / nlit (gcc_per_sun k)))%num
                           end
                       end) ;;
               rs <- opt_to_unit r_star' (u_R_sun k) ;;
               ms <- opt_to_unit m_star' (u_M_sun k) ;;
               match rho, rs, ms with
               | None, Some r, Some m =>
                   Ok (nlit 3 * m / (nlit 4 * nlit PI * r ^ 3), r, m)%num
               | Some rho, None, Some m =>
                   Ok (rho, npowr (nlit 3 * m / (nlit 4 * nlit PI * rho)) (nlit (1 / 3)), m)%num
               | Some rho, Some r, None =>
                   Ok (rho, r, nlit 4 * nlit PI * r ^ 3 * rho / nlit 3)%num
               | _, _, _ => Err TypeErr
               end) = Ok (rho', rs', ms')).
      { destruct v0, v1; try exact E2. exfalso. apply Hnb. do 2 eexists; split; reflexivity. }
      clear E2. cbv zeta in E2'.
      set (rq := if is_none r && is_none m then Some (plain (nlit 1)) else r) in *.
      set (mq := if is_none r && is_none m && is_none rho then Some (plain (nlit 1)) else m) in *.
      assert (Hrq : QSn rq) by (unfold rq; destruct (is_none r && is_none m); [cbn; sn|assumption]).
      assert (Hmq : QSn mq) by (unfold mq; destruct (is_none r && is_none m && is_none rho); [cbn; sn|assumption]).
      destruct (negb _); [discriminate|].
      destruct (match rho with None => Ok None | Some q => _ end) as [rh|] eqn:Erho; [|discriminate]. cbn [rbind] in E2'.
      destruct (opt_to_unit rq (u_R_sun k)) as [rs|] eqn:Ers; [|discriminate]. cbn [rbind] in E2'.
      destruct (opt_to_unit mq (u_M_sun k)) as [ms|] eqn:Ems; [|discriminate]. cbn [rbind] in E2'.
      assert (Srs := opt_to_unit_sn _ _ _ Hrq Ers). assert (Sms := opt_to_unit_sn _ _ _ Hmq Ems).
      assert (Srh : OSn rh).
      { destruct rho as [q|]; [|inversion Erho; exact I]. cbn in Hrho. destruct (qu q) eqn:Eq.
        - destruct (to_unit q (u_rho_sun k)) eqn:Et; [|discriminate]. inversion Erho; subst. apply (to_unit_sn q _ _ Hrho Et).
        - inversion Erho; subst. cbn [OSn]. sn. }
      destruct rh as [rh|], rs as [rs|], ms as [ms|]; try discriminate E2'; cbn [OSn] in *; inversion E2'; subst; clear E2'; split; sn. }
  destruct Star as [Srs Sms].
  destruct v0 as [av|], v1 as [pv|]; cbn [OSn] in *; try discriminate H; apply (f_equal (fun r => match r with Ok v => v | Err _ => (A, P, RHO, RS, MS, MP) end)) in H;
    inversion H; subst; clear H.
  - do 5 (split; [first [assumption|sn]|]). intro Hs.
    destruct p as [p|]; [apply (EnP p eq_refl Hs _ eq_refl)|]. destruct Hpn as [_ K]. discriminate (K eq_refl).
  - do 5 (split; [first [assumption|sn]|]). intro Hs.
    destruct p as [p|]; [destruct Hpn as [K _]; discriminate (K eq_refl)|].
    destruct a as [a|]; [|destruct Han as [_ K]; discriminate (K eq_refl)].
    assert (En A) by apply (EnA a eq_refl Hs _ eq_refl).
    apply En_map2l; [|sn]. apply En_map2r; [sn|]. apply En_map2l; [assumption|sn].
  - do 5 (split; [first [assumption|sn]|]). intro Hs.
    destruct p as [p|]; [apply (EnP p eq_refl Hs _ eq_refl)|]. destruct Hpn as [_ K]. discriminate (K eq_refl).
Qed.

Lemma pp_sn a : per_planet n a -> Sn a.
Proof.
  intros [W [E|E]]; [left|right]; (split; [exact E|]).
  - intros i i'. apply (W _ E). intros d Hd. destruct d; cbn in Hd; contradiction.
  - intros i i' Ei. apply (W _ E). intros d Hd. destruct d as [|d]; [exact Ei|]. destruct d; cbn in Hd; contradiction.
Qed.
Lemma opp_sn a : opt_per_planet n a -> OSn a.
Proof. destruct a; [apply pp_sn|auto]. Qed.
Lemma qpp_sn a : qty_per_planet n a -> QSn a.
Proof. destruct a; [apply pp_sn|auto]. Qed.
Lemma kep_init_sn k (x : kargs tens) o : planet_args n x -> kep_init k x = Ok o -> orbit_sn o /\ En (o_n o) /\ En (o_period o).
Proof.
  intros P0 H. destruct P0 as [H1 H2 H3 H4 H5 H6 H7 H8 H9 H10 H11 H12 H13 H14 H15 H16 H17 H18].
  assert (H18' : match ka_period x, ka_a x with Some p, _ => En (qv p) | None, Some a => En (qv a) | None, None => True end).
  { destruct (ka_period x) as [p|]; [|destruct (ka_a x) as [a|]; [|exact I]].
    - split; [apply (pp_sn _ H1)|]. destruct H18 as [E|[E _]]; auto.
    - split; [apply (pp_sn _ H2)|]. destruct H18 as [E|[E _]]; auto. }
  clear H18. rename H18' into H18.
  apply qpp_sn in H1, H2, H7, H13, H14, H15, H16. apply opp_sn in H3, H4, H5, H6, H8, H9, H10, H11, H12, H17.
  unfold kep_init in H. ib H. destruct v as [mpl rho].
  ib H. destruct v as [[[a rs] dur] dao].
  ib H. destruct v as [[[[[A P] RHO] RS] MS] MP].
  ib H. rename v into ed. ib H. destruct v as [[[b ci] inc] durattr]. ib H. destruct v as [t0 tp].
  apply (f_equal (fun r => match r with Ok v => v | Err _ => o end)) in H. subst o.
  assert (U : QSn mpl /\ QSn rho).
  { revert E. unfold kep_units. destruct (ka_m_planet_units x); [destruct (ka_m_planet x) as [[? [?|]]|]; try discriminate|]; cbn [rbind rmap with_unit qu];
    (destruct (ka_rho_star_units x); [destruct (ka_rho_star x) as [[? [?|]]|]; try discriminate|]); cbn [rbind rmap with_unit qu]; intro Q; inversion Q; subst; split; assumption. }
  assert (D : QSn a /\ QSn rs /\ QSn dur /\
     match ka_period x, a with Some p, _ => En (qv p) | None, Some a => En (qv a) | None, None => True end).
  { revert E0. unfold kep_duration. destruct (ka_ecc x).
    - intro Q; inversion Q; subst. repeat split; assumption.
    - destruct (ka_duration x) as [d|].
      + destruct (ka_b x) as [bb|]; [|discriminate]. destruct (ka_period x) as [p|]; [|discriminate].
        unfold get_aor. intro Q; inversion Q; subst; clear Q. cbn in H1, H6, H7.
        assert (Sror : Sn (match ka_ror x with Some r => r | None => nlit 0 end)) by (destruct (ka_ror x); [assumption|sn]).
        assert (Srs : Sn (qv (match ka_r_star x with None => plain (nlit 1) | Some r => r end))).
        { destruct (ka_r_star x); [assumption|cbn [qv plain]; sn]. }
        split; [cbn [QSn plain qv]; sn|]. split; [exact Srs|]. split; [exact I|exact H18].
      + intro Q; inversion Q; subst. repeat split; assumption. }
  destruct U as [U1 U2]. destruct D as (D1 & D2 & D3 & D4).
  destruct (ci_sn k a (ka_period x) rho rs (ka_m_star x) mpl A P RHO RS MS MP D1 H1 U2 D2 H14 U1 E1) as (SA & SP & SRS & SMS & SMP & EP).
  specialize (EP D4).
  assert (Sed : match ed with None => True | Some d => Sn (e_ecc d) /\ Sn (e_omega d) /\ Sn (e_cosw d) /\ Sn (e_sinw d) end).
  { revert E2. unfold kep_omega. destruct (ka_ecc x) as [e|]; [|intro Q; inversion Q; exact I].
    destruct (ka_omega x) as [w|].
    - destruct (_ && _); [discriminate|]. intro Q; inversion Q; subst. cbn [e_ecc e_omega e_cosw e_sinw]. cbn in H8, H9. repeat split; sn.
    - destruct (ka_sin_omega x); [|discriminate]. destruct (ka_cos_omega x); [|discriminate].
      intro Q; inversion Q; subst. cbn [e_ecc e_omega e_cosw e_sinw]. cbn in H8, H10, H11. repeat split; sn. }
  assert (EnN : En (nlit 2 * nlit PI / P)%num) by (apply En_map2r; [sn|assumption]).
  set (fac := match ed with None => _ | Some d => _ end) in E3.
  assert (Sfac : Sn fac) by (unfold fac; destruct ed as [d|]; [destruct Sed as (? & ? & ? & ?)|]; sn).
  set (M0 := match ed with None => _ | Some d => kep_M0 d end) in *.
  assert (SM0 : Sn M0).
  { unfold M0. destruct ed as [d|]; [destruct Sed as (? & ? & ? & ?); unfold kep_M0|]; sn. }
  assert (Sinc : Sn b /\ Sn ci /\ Sn inc).
  { revert E3. unfold kep_incl. destruct (ka_b x) as [bb|].
    { destruct (_ || _); [discriminate|]. intro Q; inversion Q; subst. cbn in H6. repeat split; sn. }
    destruct (ka_incl x) as [ii|].
    { destruct (negb _); [discriminate|]. intro Q; inversion Q; subst. cbn in H5. repeat split; sn. }
    destruct dur as [q|].
    { destruct ed as [d|]; [|discriminate]. destruct (to_unit q (u_day k)) as [dv|] eqn:Et; [|discriminate]. cbn [rbind].
      intro Q; inversion Q; subst. assert (Sdv := to_unit_sn q _ _ D3 Et). destruct Sed as (? & ? & ? & ?).
      unfold ecc_duration_b. repeat split; sn. }
    intro Q; inversion Q; subst. repeat split; sn. }
  destruct Sinc as (Sb & Sci & Sii).
  assert (St : Sn t0 /\ Sn tp).
  { revert E4. unfold kep_times. destruct (ka_t0 x), (ka_tper x); cbn in H3, H4; intro Q; inversion Q; subst; split; sn. }
  destruct St as [St0 Stp].
  split; [|split; [exact EnN|exact EP]].
  constructor; cbn [o_a o_period o_rho_star o_r_star o_m_star o_m_planet o_m_total o_n o_a_star
    o_a_planet o_K0 o_Omega o_ecc o_M0 o_dcosidb o_b o_cos_incl o_incl o_sin_incl o_t0 o_tper o_tref o_jac o_duration]; try assumption; try sn.
  - destruct ed as [d|]; [destruct Sed as (? & ? & ? & ?)|]; sn.
  - destruct ed as [d|]; [destruct Sed as (? & ? & ? & ?); auto|exact I].
  - destruct (ka_Omega x) as [w|]; [cbn [O_cos O_sin]; cbn in H12; split; sn|exact I].
  - destruct ed as [d|]; [destruct Sed as (? & ? & ? & ?); auto|exact I].
  - destruct (ka_Omega x) as [w|]; [cbn [O_Omega]; cbn in H12; sn|exact I].
Qed.

(** ** Results of evaluation *)
Section E.
Variable k : consts.
Variable o : orbit tens.
Hypothesis So : orbit_sn o.
Hypothesis Eno : En (o_n o).
Variable w : bool -> tens -> tens.
Hypothesis Hw1 : forall t, ash t = Ok [N] -> T1 (w true t).
Hypothesis Hw0 : forall t, EN t -> EN (w false t).

Ltac en := first
  [ assumption
  | apply EN_map; en
  | apply EN_map2; en
  | apply EN_map2l; [en|sn]
  | apply EN_map2r; [sn|en]
  | apply EN_map3; en ].

Lemma ta_shape (pad : bool) (t : tens) : (if pad then ash t = Ok [N] else EN t) ->
  EN (fst (true_anomaly o w pad t)) /\ EN (snd (true_anomaly o w pad t)).
Proof.
  intro Ht. assert (S1 := os_tref _ So). assert (S2 := os_ecc _ So).
  assert (EM : EN ((w pad t - o_tref o) * o_n o)%num).
  { destruct pad; [apply T1_En; [apply T1_map2l; [apply Hw1; exact Ht|sn]|assumption]|].
    assert (S3 := En_Sn _ Eno). assert (E0 := Hw0 t Ht). en. }
  unfold true_anomaly. destruct (o_ecc o) as [d|]; cbn [fst snd].
  - destruct S2 as (S2 & _ & _). split; en.
  - split; en.
Qed.
Lemma rot_shape (x y : tens) : EN x -> EN y -> forall v, v = rotate_vector o x y -> EN (fst (fst v)) /\ EN (snd (fst v)) /\ EN (snd v).
Proof.
  intros Hx Hy v ->. assert (S1 := os_ecc _ So). assert (S2 := os_Om _ So). assert (S3 := os_ci _ So). assert (S4 := os_si _ So).
  unfold rotate_vector.
  assert (K : forall X Y : tens, EN X -> EN Y ->
     let v := (let x2 := X in let y2 := (o_cos_incl o * Y)%num in let Z := (- o_sin_incl o * Y)%num in
       match o_Omega o with None => (x2, y2, Z) | Some w0 => ((O_cos w0 * x2 - O_sin w0 * y2)%num, (O_sin w0 * x2 + O_cos w0 * y2)%num, Z) end) in
     EN (fst (fst v)) /\ EN (snd (fst v)) /\ EN (snd v)).
  { intros X Y HX HY. cbv zeta. destruct (o_Omega o) as [w0|]; cbn [fst snd].
    - destruct S2 as [S2 S2']. repeat split; en.
    - repeat split; en. }
  destruct (o_ecc o) as [d|].
  - destruct S1 as (_ & Sc & Ss). apply K; en.
  - apply K; assumption.
Qed.
Lemma pos_nd_shape (a t : tens) par (pad : bool) : Sn a -> OSn par -> (if pad then ash t = Ok [N] else EN t) ->
  forall v, v = position_nodelay k o w a t par pad -> EN (fst (fst v)) /\ EN (snd (fst v)) /\ EN (snd v).
Proof.
  intros Ha Hp Ht v ->. unfold position_nodelay. assert (T := ta_shape pad t Ht). destruct (true_anomaly o w pad t) as [s c].
  cbn [fst snd] in T. destruct T as [Ts Tc]. assert (S1 := os_ecc _ So).
  eapply rot_shape; [| |reflexivity].
  - destruct (o_ecc o) as [d|]; [destruct S1 as (? & _ & _)|]; destruct par; cbn [OSn] in Hp; en.
  - destruct (o_ecc o) as [d|]; [destruct S1 as (? & _ & _)|]; destruct par; cbn [OSn] in Hp; en.
Qed.
Lemma pos_shape (a t : tens) par ld : Sn a -> OSn par -> ash t = Ok [N] ->
  forall v, v = get_position k o w a t par ld true -> EN (fst (fst v)) /\ EN (snd (fst v)) /\ EN (snd v).
Proof.
  intros Ha Hp Ht v ->. destruct ld; unfold get_position; [|apply (pos_nd_shape a t par true Ha Hp Ht _ eq_refl)].
  unfold retarded_position, retarded_state. assert (T := ta_shape true t Ht). destruct (true_anomaly o w true t) as [s c].
  cbn [fst snd] in T. destruct T as [Ts Tc]. assert (S1 := os_ecc _ So). assert (S2 := os_period _ So). assert (S3 := os_si _ So).
  assert (Q := padr_T1 t Ht).
  assert (D : forall v0 z az, EN v0 -> EN z -> EN az -> EN (npadr t - light_delay_of k (nlit 0) v0 z az)%num).
  { intros v0 z az H1 H2 H3. apply T1_EN; [exact Q|]. unfold light_delay_of. apply EN_map3; en. }
  destruct (o_ecc o) as [d|].
  - destruct S1 as (Se & Sc & Ss).
    set (r := (a * _ / _)%num). assert (Er : EN r) by (unfold r; en).
    assert (R := fun H1 H2 => rot_shape (r * c)%num (r * s)%num H1 H2 _ eq_refl).
    destruct (rotate_vector o (r * c)%num (r * s)%num) as [[X Y] Z]. cbn [fst snd] in R. destruct R as (_ & _ & RZ); [en|en|].
    refine (pos_nd_shape a _ None false Ha I _ _ eq_refl). cbv beta iota. apply D; en.
  - assert (R := fun H1 H2 => rot_shape (a * c)%num (a * s)%num H1 H2 _ eq_refl).
    destruct (rotate_vector o (a * c)%num (a * s)%num) as [[X Y] Z]. cbn [fst snd] in R. destruct R as (_ & _ & RZ); [en|en|].
    refine (pos_nd_shape a _ None false Ha I _ _ eq_refl). cbv beta iota. apply D; en.
Qed.
Lemma vel_shape (m t : tens) : Sn m -> ash t = Ok [N] ->
  forall v, v = get_velocity o w m t -> EN (fst (fst v)) /\ EN (snd (fst v)) /\ EN (snd v).
Proof.
  intros Hm Ht v ->. unfold get_velocity. assert (T := ta_shape true t Ht). destruct (true_anomaly o w true t) as [s c].
  cbn [fst snd] in T. destruct T as [Ts Tc]. assert (S1 := os_ecc _ So). assert (S2 := os_K0 _ So).
  destruct (o_ecc o) as [d|]; [destruct S1 as (? & _ & _)|]; (eapply rot_shape; [| |reflexivity]); en.
Qed.
Lemma acc_shape (a m t : tens) : Sn a -> Sn m -> ash t = Ok [N] ->
  forall v, v = get_acceleration o w a m t -> EN (fst (fst v)) /\ EN (snd (fst v)) /\ EN (snd v).
Proof.
  intros Ha Hm Ht v ->. unfold get_acceleration. assert (T := ta_shape true t Ht). destruct (true_anomaly o w true t) as [s c].
  cbn [fst snd] in T. destruct T as [Ts Tc]. assert (S1 := os_ecc _ So). assert (S2 := os_K0 _ So).
  destruct (o_ecc o) as [d|]; [destruct S1 as (? & _ & _)|]; (eapply rot_shape; [| |reflexivity]); en.
Qed.
End E.
End S.
