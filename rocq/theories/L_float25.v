(** * Rounding errors of light curves: the positions of a KeplerianOrbit *)
From Coq Require Import Reals Lra Lia Psatz Bool List Arith ZArith.
From Coquelicot Require Import Coquelicot.
From Verif Require Import Num CoreOps Inst CoreFlux M_units M_kepler M_fin M_tensor M_simple M_limbdark Spec_orbit Spec_params Spec_array Spec_light Spec_float Spec_float2 Spec_float3 Spec_float5 Spec_float6
  L_real L_fl L_kepop L_orbit L_shape L_shapeS L_light1 L_light4 L_undef L_undef2 L_float L_float2 L_float3 L_float4 L_float5 L_float6 L_float15.
Import ListNotations.
Local Notation length := List.length.
Open Scope R_scope.

Section V.
Variable u : R.
Variable rd : rounder.
Hypothesis Acc : accurate u rd.
Hypothesis Zero : exact_zero rd.
Let U := proj1 Acc.
Local Notation NF := (rounded_fl rd).
Local Notation NR := (rounded rd).
Local Notation NT := (rounded_tens rd).

(** the radius is a number *)
Lemma denominator o t c c' : oriented u o -> 0 <= o_n o -> u * slack o * (6 + 8 * (slack o ^ 3 * swing o t)) <= 1 / 10 -> Rabs (c' - c) <= doubt u o t -> Rabs c' <= 1 + u -> Rabs c <= 1 ->
  forall d, o_ecc o = Some d -> let e := e_ecc d in let l := rd OLit 1 0 1 in let ec := rd OMul e c' (e * c') in rd OAdd l ec (l + ec) <> 0.
Proof.
  intros Ho Hn Sm Dc Bc Bc1 d Ee e l ec. destruct (Ho d Ee) as (He & _). fold e in He. assert (U' := U).
  assert (Sl : slack o = / (1 - e)) by (unfold slack; rewrite Ee; reflexivity). assert (Hs := slack_1 u o Ho). assert (Hw := swing_pos o t Hn).
  set (q := slack o) in *. assert (Q : q * (1 - e) = 1) by (rewrite Sl; field; lra). set (D := doubt u o t) in *. assert (HD : 0 <= D) by (eapply Rle_trans; [apply Rabs_pos|exact Dc]).
  assert (SmD : q * (D + 5 * u) <= 1 / 10). { unfold D, doubt. fold q. replace (q * (8 * u * (q ^ 3 * swing o t) + u + 5 * u)) with (u * q * (6 + 8 * (q ^ 3 * swing o t))) by ring. exact Sm. }
  destruct (rd_close u rd Acc OLit 1 0 1 1 0 1) as [L1 L2]; [rewrite Rminus_eq_0, Rabs_R0; lra|rewrite Rabs_R1; lra|]. fold l in L1, L2.
  destruct (rd_close u rd Acc OMul e c' (e * c') (e * c) D (101 / 100)) as [C1 C2].
  { replace (e * c' - e * c) with (e * (c' - c)) by ring. rewrite Rabs_mult, (Rabs_pos_eq e) by lra. assert (Z := Rabs_pos (c' - c)). nra. }
  { rewrite Rabs_mult, (Rabs_pos_eq e) by lra. assert (Z := Rabs_pos c'). nra. }
  fold ec in C1, C2.
  destruct (rd_close u rd Acc OAdd l ec (l + ec) (1 + e * c) (u + (D + u * (101 / 100))) (205 / 100)) as [D1 D2].
  { replace (l + ec - (1 + e * c)) with (l - 1 + (ec - e * c)) by ring. eapply Rle_trans; [apply Rabs_triang|]. lra. }
  { eapply Rle_trans; [apply Rabs_triang|]. lra. }
  set (d' := rd OAdd l ec (l + ec)) in *. assert (D3 : Rabs (d' - (1 + e * c)) <= D + 5 * u) by lra.
  assert (Bc2 : -1 <= c <= 1) by (apply Rabs_le_between; exact Bc1). assert (Dn : 1 - e <= 1 + e * c) by nra. set (dn := 1 + e * c) in *.
  assert (Dq : 1 <= q * dn) by nra. assert (Dl : 9 / 10 <= q * d'). { apply Rabs_le_between in D3. nra. }
  intro H0. rewrite H0 in Dl. lra.
Qed.

Lemma fin_place k o t A : oriented u o -> 0 <= o_n o -> u * slack o * (6 + 8 * (slack o ^ 3 * swing o t)) <= 1 / 10 ->
  @position_nodelay fl bool NF k (fin_orbit o) (@kep_warp fl bool NF (fin_orbit o)) (Fin A) (Fin t) None true = fin3 (@position_nodelay R bool NR k o (@kep_warp R bool NR o) A t None true).
Proof.
  intros Ho Hn Sm. assert (T := anomaly_close u rd Acc Zero o t Ho Hn true). cbv zeta in T. unfold position_nodelay.
  assert (TA : @true_anomaly fl bool NF (fin_orbit o) (@kep_warp fl bool NF (fin_orbit o)) true (Fin t) = (let '(s, c) := @true_anomaly R bool NR o (@kep_warp R bool NR o) true t in (Fin s, Fin c))).
  { unfold true_anomaly. cbn [fin_orbit map_orbit o_ecc]. destruct (o_ecc o) as [d|] eqn:Ee; cbn [option_map]; [|reflexivity].
    assert (He := proj1 (Ho d Ee)). cbn. unfold fkep. rewrite Rplus_0_r, Zero. assert (Hb : (Rleb 0 (e_ecc d) && Rltb (e_ecc d) 1)%bool = true) by (unfold Rleb, Rltb; destruct (Rle_dec 0 (e_ecc d)) as [_|c]; [|lra]; destruct (Rlt_dec (e_ecc d) 1) as [_|c]; [reflexivity|lra]). rewrite Hb. reflexivity. }
  rewrite TA. clear TA. destruct (@true_anomaly R bool NR o (@kep_warp R bool NR o) true t) as [s' c']. destruct (@true_anomaly R bool NumR o (@kep_warp R bool NumR o) true t) as [s c].
  cbn [fst snd] in T. destruct T as (T1 & T2 & T3 & T4 & T5 & T6).
  assert (Rot : forall x y, @rotate_vector fl bool NF (fin_orbit o) (Fin x) (Fin y) = fin3 (@rotate_vector R bool NR o x y)).
  { intros x y. unfold rotate_vector. cbn [fin_orbit map_orbit o_ecc o_Omega o_cos_incl o_sin_incl]. destruct (o_ecc o), (o_Omega o); reflexivity. }
  destruct (o_ecc o) as [d|] eqn:Ee.
  - assert (DD := denominator o t c c' Ho Hn Sm T2 T4 T6 d Ee). cbv zeta in DD. cbn [fin_orbit map_orbit o_ecc]. rewrite Ee. cbn [option_map].
    rewrite <- Rot. f_equal; cbn -[Reqb]; unfold fdiv; cbn [fadd fmul fsub fneg rnd value]; rewrite (Reqb_ne _ _ DD); reflexivity.
  - cbn [fin_orbit map_orbit o_ecc]. rewrite Ee. cbn [option_map]. rewrite <- Rot. reflexivity.
Qed.

(** arrays *)
Lemma place_at k (o : orbit tens) i a t : map_vec (fun a : tens => aget a i) (@position_nodelay tens btens NT k o (@kep_warp tens btens NT o) a t None true)
  = @position_nodelay fl bool NF k (orbit_at i o) (@kep_warp fl bool NF (orbit_at i o)) (aget a i) (aget t (fun d => i (S d))) None true.
Proof.
  unfold position_nodelay.
  assert (T : (let '(s, c) := @true_anomaly tens btens NT o (@kep_warp tens btens NT o) true t in (aget s i, aget c i)) = @true_anomaly fl bool NF (orbit_at i o) (@kep_warp fl bool NF (orbit_at i o)) true (aget t (fun d => i (S d)))).
  { unfold true_anomaly, orbit_at, kep_warp. cbn [map_orbit o_tref o_n o_ecc o_t0]. destruct (o_ecc o); reflexivity. }
  destruct (@true_anomaly tens btens NT o (@kep_warp tens btens NT o) true t) as [s c]. rewrite <- T.
  assert (R0 : forall x y, map_vec (fun a : tens => aget a i) (@rotate_vector tens btens NT o x y) = @rotate_vector fl bool NF (orbit_at i o) (aget x i) (aget y i)).
  { intros x y. unfold rotate_vector, orbit_at. cbn [map_orbit o_ecc o_Omega o_cos_incl o_sin_incl]. destruct (o_ecc o), (o_Omega o); reflexivity. }
  rewrite R0. unfold orbit_at. cbn [map_orbit o_ecc]. destruct (o_ecc o); reflexivity.
Qed.

Lemma place_shape k (o : orbit tens) n s t : List.Forall (one_or_each n) (attribute_list o) -> (ash (o_n o) = Ok [n] \/ n = 1%nat) -> ash t = Ok s ->
  forall v, v = @position_nodelay tens btens NT k o (@kep_warp tens btens NT o) (@nneg tens btens NT (o_a o)) t None true -> ENS n s (fst (fst v)) /\ ENS n s (snd (fst v)) /\ ENS n s (snd v).
Proof.
  intros HA Hn Et v ->. unfold attribute_list in HA. apply Forall_app in HA. destruct HA as [H1 H2]. apply Forall_app in H2. destruct H2 as [H2 H3].
  inversion_clear H1 as [|? ? P1 Q1]. inversion_clear Q1 as [|? ? P2 Q2]. inversion_clear Q2 as [|? ? P3 Q3]. inversion_clear Q3 as [|? ? P4 Q4]. inversion_clear Q4 as [|? ? P5 Q5]. inversion_clear Q5 as [|? ? P6 Q6]. inversion_clear Q6 as [|? ? P7 _].
  assert (SS : forall a, one_or_each n a -> Sn n a) by (intros a X; exact X). apply SS in P1, P2, P3, P4, P5, P6, P7.
  assert (S1 : match o_ecc o with None => True | Some d => Sn n (e_ecc d) /\ Sn n (e_cosw d) /\ Sn n (e_sinw d) end).
  { destruct (o_ecc o) as [d|]; [|exact I]. inversion_clear H2 as [|? ? A1 B1]. inversion_clear B1 as [|? ? A2 B2]. inversion_clear B2 as [|? ? A3 _]. split; [|split]; apply SS; assumption. }
  assert (S2 : match o_Omega o with None => True | Some w => Sn n (O_cos w) /\ Sn n (O_sin w) end).
  { destruct (o_Omega o) as [d|]; [|exact I]. inversion_clear H3 as [|? ? A1 B1]. inversion_clear B1 as [|? ? A2 _]. split; apply SS; assumption. }
  assert (En0 : L_shape.En n (o_n o)) by (split; assumption).
  assert (W : T1S n s (@kep_warp tens btens NT o true t)) by (apply T1S_map2l; [apply padr_T1S; exact Et|exact P6]).
  assert (EM : ENS n s (@nmul tens btens NT (@nsub tens btens NT (@kep_warp tens btens NT o true t) (o_tref o)) (o_n o))) by (apply T1S_En; [apply T1S_map2l; assumption|exact En0]).
  assert (TA : ENS n s (fst (@true_anomaly tens btens NT o (@kep_warp tens btens NT o) true t)) /\ ENS n s (snd (@true_anomaly tens btens NT o (@kep_warp tens btens NT o) true t))).
  { unfold true_anomaly. destruct (o_ecc o) as [d|]; cbn [fst snd].
    - destruct S1 as (S1 & _). split; (apply ENS_map2; [exact EM|]; apply ENS_map2r; [exact S1|apply ENS_map; exact EM]).
    - split; apply ENS_map; exact EM. }
  assert (Rot : forall x y, ENS n s x -> ENS n s y -> let v := @rotate_vector tens btens NT o x y in ENS n s (fst (fst v)) /\ ENS n s (snd (fst v)) /\ ENS n s (snd v)).
  { intros x y Hx Hy. cbv zeta. unfold rotate_vector.
    assert (K : forall X Y : tens, ENS n s X -> ENS n s Y ->
       let v := (let x2 := X in let y2 := @nmul tens btens NT (o_cos_incl o) Y in let Z := @nmul tens btens NT (@nneg tens btens NT (o_sin_incl o)) Y in
         match o_Omega o with None => (x2, y2, Z) | Some w0 => (@nsub tens btens NT (@nmul tens btens NT (O_cos w0) x2) (@nmul tens btens NT (O_sin w0) y2), @nadd tens btens NT (@nmul tens btens NT (O_sin w0) x2) (@nmul tens btens NT (O_cos w0) y2), Z) end) in
       ENS n s (fst (fst v)) /\ ENS n s (snd (fst v)) /\ ENS n s (snd v)).
    { intros X Y HX HY. cbv zeta. assert (Y2 : ENS n s (@nmul tens btens NT (o_cos_incl o) Y)) by (apply ENS_map2r; assumption).
      assert (Z2 : ENS n s (@nmul tens btens NT (@nneg tens btens NT (o_sin_incl o)) Y)) by (apply ENS_map2r; [apply Sn_map; assumption|assumption]).
      destruct (o_Omega o) as [w0|]; cbn [fst snd].
      - destruct S2 as [A1 A2]. split; [|split]; [| |exact Z2]; (apply ENS_map2; apply ENS_map2r; assumption).
      - split; [exact HX|split; assumption]. }
    destruct (o_ecc o) as [d|].
    - destruct S1 as (_ & Sc & Ss). apply K; (apply ENS_map2; apply ENS_map2r; assumption).
    - apply K; assumption. }
  unfold position_nodelay. destruct (@true_anomaly tens btens NT o (@kep_warp tens btens NT o) true t) as [sf cf]. cbn [fst snd] in TA. destruct TA as [Ts Tc].
  destruct (o_ecc o) as [d|].
  - destruct S1 as (S1 & _). apply Rot; (apply ENS_map2; [|assumption]); (apply ENS_map2r; [apply Sn_map2; [apply Sn_map; assumption|apply Sn_map2; [apply Sn_lit|apply Sn_map2; assumption]]|]); (apply ENS_map2r; [apply Sn_lit|apply ENS_map2r; assumption]).
  - apply Rot; (apply ENS_map2r; [apply Sn_map; assumption|assumption]).
Qed.

(** the orbit of the machine, whether or not the results are numbers *)
Definition placeF k (o : orbit R) (t : fl) : fl * fl * fl := @position_nodelay fl bool NF k (fin_orbit o) (@kep_warp fl bool NF (fin_orbit o)) (Fin (- o_a o)) t None true.
Lemma kepler_answersQ k n (o : orbit tens) os mask : array_orbit n o os ->
  answersQ (computed_kepler rd k o mask) false n (fun j t => placeF k (os j) t) /\ planetF n (oa_r_star (computed_kepler rd k o mask)) (fun j => Fin (o_r_star (os j))).
Proof.
  intros (HA & Hn & Oat). split.
  - intros s t Et Wt _. cbn [oa_pos computed_kepler]. unfold get_relative_position, get_position.
    assert (Sh := place_shape k o n s t HA Hn Et _ eq_refl). assert (Va := fun i => place_at k o i (@nneg tens btens NT (o_a o)) t).
    destruct (@position_nodelay tens btens NT k o (@kep_warp tens btens NT o) (@nneg tens btens NT (o_a o)) t None true) as [[X Y] Z]. cbn [fst snd] in Sh. destruct Sh as (SX & SY & SZ).
    exists (asqz X), (asqz Y), (asqz Z), (squeezed (n :: s)). split; [reflexivity|].
    apply (answersF_of n s t X Y Z _ Et Wt SX SY SZ). intros i Hi. specialize (Va i). rewrite (Oat i Hi) in Va.
    replace (aget (@nneg tens btens NT (o_a o)) i) with (Fin (- o_a (os (i O)))) in Va by (assert (E := f_equal (fun o => fneg (o_a o)) (Oat i Hi)); symmetry; exact E).
    exact Va.
  - cbn [oa_r_star computed_kepler]. assert (P := Forall_inv (Forall_inv_tail HA)). split; [destruct P as [[E _]|[E _]]; [left|right]; exact E|]. intros i Hi. exact (f_equal (fun o => o_r_star o) (Oat i Hi)).
Qed.
Lemma placeF_is k o t : oriented u o -> 0 <= o_n o -> u * slack o * (6 + 8 * (slack o ^ 3 * swing o t)) <= 1 / 10 ->
  placeF k o (Fin t) = fin3 (@get_relative_position R bool NR k o (@kep_warp R bool NR o) t None false).
Proof.
  intros A B C. unfold placeF. rewrite (fin_place k o t (- o_a o) A B C). unfold get_relative_position, get_position, sqz3. cbn [nneg nsqz rounded]. destruct (@position_nodelay R bool NR k o _ _ _ _ _) as [[a b] c]. reflexivity.
Qed.
End V.
