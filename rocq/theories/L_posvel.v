(** * The combined state of star and planets: proofs *)
From Coq Require Import Reals List Bool Arith Lra Lia.
From Verif Require Import Num CoreOps Inst M_units M_kepler M_fin M_tensor M_limbdark M_posvel Spec_orbit Spec_params Spec_array Spec_posvel
  L_real L_orbit L_params3 L_fl L_fl3 L_tens L_shape L_shapeS L_transit3 L_light2 L_transit L_transit6 Ex_orbit Ex_system.
Import ListNotations.
Local Notation length := List.length.
Open Scope R_scope.

(** ** over the reals *)
Lemma comp_rot (o : orbit R) (a x y : R) c : comp c (rotate_vector o (a * x) (a * y)) = a * comp c (rotate_vector o x y).
Proof.
  unfold rotate_vector. destruct (o_ecc o), (o_Omega o); destruct c as [|[|c]]; unfold comp, vx, vy, vz; fn; ring.
Qed.
Lemma up_pos k (o : orbit R) (a t : R) par c :
  comp c (position_nodelay k o (kep_warp o) a t par true) = a * comp c (unit_position o (kep_warp o) t) * angular (au_per_R_sun k) par.
Proof.
  unfold position_nodelay, unit_position. destruct (true_anomaly o (kep_warp o) true t) as [s co].
  rewrite (Rmult_comm (a * _)), <- Rmult_assoc. rewrite <- comp_rot. f_equal. destruct (o_ecc o), par; cbn [angular]; f_equal; fn; unfold Rdiv; ring.
Qed.
Lemma up_vel (o : orbit R) (m t : R) c : comp c (get_velocity o (kep_warp o) m t) = m * comp c (unit_velocity o (kep_warp o) t).
Proof.
  unfold get_velocity, unit_velocity. destruct (true_anomaly o (kep_warp o) true t) as [s co].
  destruct (o_ecc o); rewrite <- comp_rot; f_equal; f_equal; fn; ring.
Qed.

(** ** on machine numbers *)
Section F.
Variable o : orbit R.
Hypothesis ph : physical o.
Lemma unit_position_fin t : unit_position (fin_orbit o) (kep_warp (fin_orbit o)) (Fin t) = fin3 (unit_position o (kep_warp o) t).
Proof.
  unfold unit_position. rewrite (ta_fin o ph _ _ (kep_warp_fin o)). assert (C := conic_pos o ph (kep_warp o) true t).
  destruct (true_anomaly o (kep_warp o) true t) as [s c]. cbn [fst snd] in *. cbn [fin_orbit map_orbit o_ecc option_map].
  destruct (o_ecc o) as [d|] eqn:E; cbn [option_map map_eccd e_ecc].
  { specialize (C d eq_refl). fn. rewrite fdiv_fin by lra. fn. fold (fin_orbit o). apply (rot_fin o). }
  fn. apply (rot_fin o).
Qed.
Lemma unit_velocity_fin t : unit_velocity (fin_orbit o) (kep_warp (fin_orbit o)) (Fin t) = fin3 (unit_velocity o (kep_warp o) t).
Proof.
  unfold unit_velocity. rewrite (ta_fin o ph _ _ (kep_warp_fin o)).
  destruct (true_anomaly o (kep_warp o) true t) as [s c]. cbn [fst snd] in *. cbn [fin_orbit map_orbit o_ecc o_K0 option_map].
  destruct (o_ecc o) as [d|] eqn:E; cbn [option_map map_eccd e_ecc]; fn; apply (rot_fin o).
Qed.
End F.

(** ** on arrays *)
Section A.
Variables (n : nat) (D : shape) (o : orbit tens) (os : nat -> orbit R).
Hypothesis So : orbit_sn n o.
Hypothesis Eno : En n (o_n o).
Hypothesis Ho : forall i, (i O < n)%nat -> orbit_at i o = fin_orbit (os (i O)).
Hypothesis Ph : forall j, (j < n)%nat -> physical (os j).
Variable t : tens.
Hypothesis Ht : ash t = Ok D.
Local Notation w := (kep_warp o).
Local Notation ENS := (L_shapeS.ENS n D).

Ltac sn := first [ assumption | apply (Sn_lit n) | apply En_Sn; assumption | apply Sn_map; sn | apply Sn_map2; sn ].
Ltac en := first [ assumption | apply ENS_map; en | apply ENS_map2; en | apply ENS_map2l; [en|sn] | apply ENS_map2r; [sn|en] ].
Lemma stack_shape (v : tens * tens * tens) : ENS (fst (fst v)) /\ ENS (snd (fst v)) /\ ENS (snd v) -> ash (stack3 v) = Ok (3%nat :: n :: D).
Proof.
  destruct v as [[x y] z]. unfold L_shapeS.ENS. cbn [fst snd stack3 ash]. intros (-> & -> & ->).
  destruct (list_eq_dec Nat.eq_dec (n :: D) (n :: D)); [reflexivity|congruence].
Qed.
Lemma stack_at (v : tens * tens * tens) i : aget (stack3 v) i =
  match i O with O => fst (fst (map_vec (fun a : tens => aget a (fun d => i (S d))) v))
  | S O => snd (fst (map_vec (fun a : tens => aget a (fun d => i (S d))) v)) | _ => snd (map_vec (fun a : tens => aget a (fun d => i (S d))) v) end.
Proof. destruct v as [[x y] z]. cbn. destruct (i O) as [|[|q]]; reflexivity. Qed.
Lemma stack_fin (v : tens * tens * tens) i r : map_vec (fun a : tens => aget a (fun d => i (S d))) v = fin3 r -> aget (stack3 v) i = Fin (comp (i O) r).
Proof. intro E. rewrite stack_at, E. destruct r as [[x y] z]. destruct (i O) as [|[|q]]; reflexivity. Qed.

Lemma up_shapes : ash (stack3 (unit_position o w t)) = Ok (3%nat :: n :: D) /\ ash (stack3 (unit_velocity o w t)) = Ok (3%nat :: n :: D).
Proof.
  assert (W1 : forall t, ash t = Ok D -> T1S n D (w true t)) by (intros u Hu; apply (T1S_map2l n D fsub); [apply padr_T1S; exact Hu|apply (os_t0 _ _ So)]).
  assert (W0 : forall t, ENS t -> ENS (w false t)) by (intros u Hu; apply (ENS_map2l n D fsub); [exact Hu|apply (os_t0 _ _ So)]).
  assert (T := ta_shapeS n D o So Eno w W1 W0 true t Ht). assert (S1 := os_ecc _ _ So). assert (S2 := os_K0 _ _ So).
  split; apply stack_shape; unfold unit_position, unit_velocity; destruct (true_anomaly o w true t) as [s c]; cbn [fst snd] in T; destruct T as [Ts Tc].
  { destruct (o_ecc o) as [d|]; [destruct S1 as (Se & _ & _)|]; (eapply (rot_shapeS n D o So); [| |reflexivity]); en. }
  { destruct (o_ecc o) as [d|]; [destruct S1 as (Se & _ & _)|]; (eapply (rot_shapeS n D o So); [| |reflexivity]); en. }
Qed.

Lemma unit_position_at i : map_vec (fun a : tens => aget a i) (unit_position o w t) =
  unit_position (orbit_at i o) (kep_warp (orbit_at i o)) (aget t (fun d => i (S d))).
Proof.
  unfold unit_position. assert (T := ta_at i o w _ (kep_warp_at1 o i) (kep_warp_at0 o i) true t).
  destruct (true_anomaly o w true t) as [s c]. rewrite <- T. rewrite rot_at. unfold orbit_at. cbn [map_orbit o_ecc]. destruct (o_ecc o); reflexivity.
Qed.
Lemma unit_velocity_at i : map_vec (fun a : tens => aget a i) (unit_velocity o w t) =
  unit_velocity (orbit_at i o) (kep_warp (orbit_at i o)) (aget t (fun d => i (S d))).
Proof.
  unfold unit_velocity. assert (T := ta_at i o w _ (kep_warp_at1 o i) (kep_warp_at0 o i) true t).
  destruct (true_anomaly o w true t) as [s c]. rewrite <- T. unfold orbit_at at 1 2. cbn [map_orbit o_ecc o_K0]. destruct (o_ecc o); cbn [option_map]; rewrite rot_at; reflexivity.
Qed.
Lemma up_val i tau : (i 1 < n)%nat -> aget t (fun d => i (S (S d))) = Fin tau ->
  aget (stack3 (unit_position o w t)) i = Fin (comp (i O) (unit_position (os (i 1%nat)) (kep_warp (os (i 1%nat))) tau)) /\
  aget (stack3 (unit_velocity o w t)) i = Fin (comp (i O) (unit_velocity (os (i 1%nat)) (kep_warp (os (i 1%nat))) tau)).
Proof.
  intros Hi E. split; apply stack_fin; [rewrite unit_position_at|rewrite unit_velocity_at]; cbv beta; rewrite E; rewrite (Ho (fun d => i (S d)) Hi);
  [apply unit_position_fin|apply unit_velocity_fin]; apply Ph; exact Hi.
Qed.

Lemma scaled_shape (a U : tens) : Sn n a -> ash U = Ok (3%nat :: n :: D) -> ash (apadr a * U)%num = Ok (3%nat :: n :: D).
Proof.
  intros Sa E. cbn [ash nmul NumT amap2 apadr]. rewrite E. destruct Sa as [[-> _]|[-> _]]; cbn [bcr rmap bc Nat.eqb]; [reflexivity|].
  rewrite Nat.eqb_refl. reflexivity.
Qed.
Lemma attr_at (f : forall T : Type, orbit T -> T) (i : idx) : 
  (forall (T U : Type) (g : T -> U) (o : orbit T), f U (map_orbit g o) = g (f T o)) ->
  (i O < n)%nat -> aget (f tens o) i = Fin (f R (os (i O))).
Proof. intros Hf Hi. assert (E := f_equal (f fl) (Ho i Hi)). unfold orbit_at, fin_orbit in E. rewrite !Hf in E. exact E. Qed.

Lemma scaled_val (a : tens) (i : idx) r v U : aget a (fun d => i (S d)) = Fin r -> aget U i = Fin v -> aget (apadr a * U)%num i = Fin (r * v).
Proof. intros E1 E2. cbn [nmul NumT amap2 aget apadr]. rewrite E1, E2. reflexivity. Qed.
End A.


Lemma cat1 (A B : tens) c p q : ash A = Ok [c; p] -> ash B = Ok [c; q] ->
  ash (aconcat0 (asum0 A) B) = Ok [c; S q] /\
  forall z, aget (aconcat0 (asum0 A) B) (at_tp 0 z) = fsum (map (fun m => aget A (set_ix 1 m (at_tp 0 z))) (seq 0 p)) /\
    forall m, aget (aconcat0 (asum0 A) B) (at_tp (S m) z) = aget B (set_ix 1 m (at_tp (S m) z)).
Proof.
  intros EA EB. unfold aconcat0, asum0. rewrite EA. cbn [ash removelast app last List.length]. rewrite EB. cbn [ash aget removelast last Nat.sub].
  split; [|intro z; split; [reflexivity|intro m; cbn; rewrite Nat.sub_0_r; reflexivity]].
  destruct (list_eq_dec Nat.eq_dec [c] [c]); [reflexivity|congruence].
Qed.
Lemma cat2 (A B : tens) c d p q : ash A = Ok [c; d; p] -> ash B = Ok [c; d; q] ->
  ash (aconcat0 (asum0 A) B) = Ok [c; d; S q] /\
  forall y z, aget (aconcat0 (asum0 A) B) (at_rpc 0 y z) = fsum (map (fun m => aget A (set_ix 2 m (at_rpc 0 y z))) (seq 0 p)) /\
    forall m, aget (aconcat0 (asum0 A) B) (at_rpc (S m) y z) = aget B (set_ix 2 m (at_rpc (S m) y z)).
Proof.
  intros EA EB. unfold aconcat0, asum0. rewrite EA. cbn [ash removelast app last List.length]. rewrite EB. cbn [ash aget removelast last Nat.sub].
  split; [|intros y z; split; [reflexivity|intro m; cbn; rewrite Nat.sub_0_r; reflexivity]].
  destruct (list_eq_dec Nat.eq_dec [c; d] [c; d]); [reflexivity|congruence].
Qed.
Lemma fsum_total (F : nat -> fl) (f : nat -> R) p : (forall m, (m < p)%nat -> F m = Fin (f m)) -> fsum (map F (seq 0 p)) = Fin (total f p).
Proof.
  intro H. unfold total. rewrite <- fsum_fin. f_equal. apply map_ext_in. intros m Hm. apply in_seq in Hm. apply H. lia.
Qed.
Lemma total_ext f g p : (forall m, (m < p)%nat -> f m = g m) -> total f p = total g p.
Proof. intro H. unfold total. f_equal. apply map_ext_in. intros m Hm. apply in_seq in Hm. apply H. lia. Qed.
Lemma total_scale r f p : total (fun m => r * f m) p = r * total f p.
Proof. unfold total. induction (seq 0 p) as [|m l IH]; cbn [map fold_right]; [ring|]. rewrite IH. ring. Qed.

Lemma par_apply k (par : option R) (P V : tens) s1 s2 : ash P = Ok s1 -> ash V = Ok s2 ->
  let r := match option_map scalar par with None => (P, V) | Some p => let f := (p * nlit (au_per_R_sun k))%num in (P * f, V * f)%num end in
  ash (fst r) = Ok s1 /\ ash (snd r) = Ok s2 /\
  (forall i v, aget P i = Fin v -> aget (fst r) i = Fin (v * angular (au_per_R_sun k) par)) /\
  (forall i v, aget V i = Fin v -> aget (snd r) i = Fin (v * angular (au_per_R_sun k) par)).
Proof.
  intros E1 E2. destruct par as [p|]; cbn [option_map fst snd angular].
  { split; [|split; [|split]].
    { cbn. rewrite E1. cbn. rewrite bc_nil. reflexivity. }
    { cbn. rewrite E2. cbn. rewrite bc_nil. reflexivity. }
    { intros i v E. cbn. rewrite E. reflexivity. }
    { intros i v E. cbn. rewrite E. reflexivity. } }
  split; [exact E1|]. split; [exact E2|]. split; intros i v E; rewrite Rmult_1_r; exact E.
Qed.

Section M.
Variables (k : consts) (n : nat) (x : kargs tens) (xs : nat -> kargs R) (os : nat -> orbit R) (o : orbit tens).
Hypothesis kok : consts_ok k.
Hypothesis sys : system k n x xs os.
Hypothesis init : kep_init k x = Ok o.
Variable par : option R.

Lemma posS j t c : comp c (pos k (os j) Star t par false) = o_a_star (os j) * comp c (unit_position (os j) (kep_warp (os j)) t) * angular (au_per_R_sun k) par.
Proof. rewrite <- up_pos. unfold pos, get_star_position, get_position. destruct (position_nodelay _ _ _ _ _ _ _) as [[? ?] ?]. reflexivity. Qed.
Lemma posP j t c : comp c (pos k (os j) Planet t par false) = o_a_planet (os j) * comp c (unit_position (os j) (kep_warp (os j)) t) * angular (au_per_R_sun k) par.
Proof. rewrite <- up_pos. unfold pos, get_planet_position, get_position. destruct (position_nodelay _ _ _ _ _ _ _) as [[? ?] ?]. reflexivity. Qed.
Lemma velS j t c : comp c (vel (os j) Star t) = o_m_planet (os j) * comp c (unit_velocity (os j) (kep_warp (os j)) t).
Proof. rewrite <- up_vel. unfold vel, get_star_velocity. destruct (get_velocity _ _ _ _) as [[? ?] ?]. reflexivity. Qed.
Lemma velP j t c : comp c (vel (os j) Planet t) = - o_m_star (os j) * comp c (unit_velocity (os j) (kep_warp (os j)) t).
Proof. rewrite <- up_vel. unfold vel, get_planet_velocity. destruct (get_velocity _ _ _ _) as [[? ?] ?]. reflexivity. Qed.

(** the four scaled arrays *)
Lemma four (D : shape) (t : tens) : ash t = Ok D ->
  let U := stack3 (unit_position o (kep_warp o) t) in
  let W := stack3 (unit_velocity o (kep_warp o) t) in
  ash (apadr (o_a_star o) * U)%num = Ok (3%nat :: n :: D) /\ ash (apadr (o_a_planet o) * U)%num = Ok (3%nat :: n :: D) /\
  ash (apadr (o_m_planet o) * W)%num = Ok (3%nat :: n :: D) /\ ash (- apadr (o_m_star o) * W)%num = Ok (3%nat :: n :: D) /\
  forall (i : idx) tau, (i 1 < n)%nat -> aget t (fun d => i (S (S d))) = Fin tau ->
    aget (apadr (o_a_star o) * U)%num i = Fin (o_a_star (os (i 1%nat)) * comp (i O) (unit_position (os (i 1%nat)) (kep_warp (os (i 1%nat))) tau)) /\
    aget (apadr (o_a_planet o) * U)%num i = Fin (o_a_planet (os (i 1%nat)) * comp (i O) (unit_position (os (i 1%nat)) (kep_warp (os (i 1%nat))) tau)) /\
    aget (apadr (o_m_planet o) * W)%num i = Fin (comp (i O) (vel (os (i 1%nat)) Star tau)) /\
    aget (- apadr (o_m_star o) * W)%num i = Fin (comp (i O) (vel (os (i 1%nat)) Planet tau)).
Proof.
  intro Ht. destruct (system_orbit k n x xs os kok sys) as (o' & Ho' & So & Eno & Epo & Oat). rewrite init in Ho'. apply Ok_inj in Ho'. subst o'.
  destruct (up_shapes n D o So Eno t Ht) as [EU EW]. intros U W.
  assert (Ea := os_as _ _ So). assert (Eb := os_ap _ _ So). assert (Ec := os_mp _ _ So). assert (Ed := os_ms _ _ So).
  split; [apply scaled_shape; assumption|]. split; [apply scaled_shape; assumption|]. split; [apply scaled_shape; assumption|].
  split. { change (- apadr (o_m_star o))%num with (apadr (amap fneg (o_m_star o))). apply scaled_shape; [apply Sn_map; exact Ed|assumption]. }
  intros i tau Hi Et. 
  destruct (up_val n o os Oat (fun j Hj => sy_phys _ _ _ _ _ sys j Hj) t i tau Hi Et) as [VU VW].
  assert (At := fun f H => attr_at n o os Oat f (fun d => i (S d)) H Hi). cbv beta in At.
  split. { apply scaled_val; [apply (At (fun T => @o_a_star T)); reflexivity|exact VU]. }
  split. { apply scaled_val; [apply (At (fun T => @o_a_planet T)); reflexivity|exact VU]. }
  split. { rewrite velS. apply scaled_val; [apply (At (fun T => @o_m_planet T)); reflexivity|exact VW]. }
  rewrite velP. change (- apadr (o_m_star o))%num with (apadr (amap fneg (o_m_star o))). apply scaled_val; [|exact VW].
  cbn [amap aget]. rewrite (At (fun T => @o_m_star T)) by reflexivity. reflexivity.
Qed.

Lemma one_time (tau : R) :
  let '(P, V) := get_position_and_velocity k o (kep_warp o) (scalar tau) (option_map scalar par) in
  let g := angular (au_per_R_sun k) par in
  ash P = Ok [3; S n]%nat /\ ash V = Ok [3; S n]%nat /\
  forall c, (c < 3)%nat ->
    aget P (at_tp 0 c) = Fin (total (fun j => comp c (pos k (os j) Star tau par false)) n) /\
    aget V (at_tp 0 c) = Fin (g * total (fun j => comp c (vel (os j) Star tau)) n) /\
    forall j, (j < n)%nat ->
      aget P (at_tp (S j) c) = Fin (comp c (pos k (os j) Planet tau par false)) /\
      aget V (at_tp (S j) c) = Fin (g * comp c (vel (os j) Planet tau)).
Proof.
  destruct (four [] (scalar tau) eq_refl) as (E1 & E2 & E3 & E4 & F).
  unfold get_position_and_velocity.
  destruct (cat1 _ _ _ _ _ E1 E2) as [SP VP]. destruct (cat1 _ _ _ _ _ E3 E4) as [SV VV].
  set (P := aconcat0 _ (apadr (o_a_planet o) * _)%num) in *. set (V := aconcat0 _ (- apadr (o_m_star o) * _)%num) in *.
  assert (Q := par_apply k par P V _ _ SP SV). cbv zeta in Q |- *.
  destruct (match option_map scalar par with Some _ => _ | None => _ end) as [P' V']. cbn [fst snd] in Q. destruct Q as (Q1 & Q2 & Q3 & Q4).
  split; [exact Q1|]. split; [exact Q2|]. intros c Hc. destruct (VP c) as [VP0 VPS]. destruct (VV c) as [VV0 VVS].
  split; [|split].
  { rewrite (Q3 _ (total (fun j => o_a_star (os j) * comp c (unit_position (os j) (kep_warp (os j)) tau)) n)).
    { f_equal. rewrite Rmult_comm, <- total_scale. apply total_ext. intros m _. rewrite posS. ring. }
    rewrite VP0. apply fsum_total. intros m Hm. apply (F (set_ix 1 m (at_tp 0 c)) tau Hm eq_refl). }
  { rewrite Rmult_comm. apply Q4. rewrite VV0. apply fsum_total. intros m Hm. apply (F (set_ix 1 m (at_tp 0 c)) tau Hm eq_refl). }
  intros j Hj. destruct (F (set_ix 1 j (at_tp (S j) c)) tau Hj eq_refl) as (_ & F2 & _ & F4). split.
  { rewrite posP. apply Q3. rewrite VPS. exact F2. }
  rewrite Rmult_comm. apply Q4. rewrite VVS. exact F4.
Qed.

Lemma several_times (N : nat) (t : tens) (ts : nat -> R) : is_vector N t -> (forall m, (m < N)%nat -> aget t (at_time m) = Fin (ts m)) ->
  let '(P, V) := get_position_and_velocity k o (kep_warp o) t (option_map scalar par) in
  let g := angular (au_per_R_sun k) par in
  ash P = Ok [3; n; S N]%nat /\ ash V = Ok [3; n; S N]%nat /\
  forall j c, (j < n)%nat -> (c < 3)%nat ->
    aget P (at_rpc 0 j c) = Fin (total (fun m => comp c (pos k (os j) Star (ts m) par false)) N) /\
    aget V (at_rpc 0 j c) = Fin (g * total (fun m => comp c (vel (os j) Star (ts m))) N) /\
    forall m, (m < N)%nat ->
      aget P (at_rpc (S m) j c) = Fin (comp c (pos k (os j) Planet (ts m) par false)) /\
      aget V (at_rpc (S m) j c) = Fin (g * comp c (vel (os j) Planet (ts m))).
Proof.
  intros [Wt Et] Vt. destruct (four [N] t Et) as (E1 & E2 & E3 & E4 & F).
  assert (G : forall (i : idx), (i 2 < N)%nat -> aget t (fun d => i (S (S d))) = Fin (ts (i 2%nat))).
  { intros i Hi. rewrite <- (Vt _ Hi). apply (Wt [N] Et). intros d Hd. destruct d as [|[|d]]; [reflexivity| |]; elim Hd; reflexivity. }
  unfold get_position_and_velocity.
  destruct (cat2 _ _ _ _ _ _ E1 E2) as [SP VP]. destruct (cat2 _ _ _ _ _ _ E3 E4) as [SV VV].
  set (P := aconcat0 _ (apadr (o_a_planet o) * _)%num) in *. set (V := aconcat0 _ (- apadr (o_m_star o) * _)%num) in *.
  assert (Q := par_apply k par P V _ _ SP SV). cbv zeta in Q |- *.
  destruct (match option_map scalar par with Some _ => _ | None => _ end) as [P' V']. cbn [fst snd] in Q. destruct Q as (Q1 & Q2 & Q3 & Q4).
  split; [exact Q1|]. split; [exact Q2|]. intros j c Hj Hc. destruct (VP j c) as [VP0 VPS]. destruct (VV j c) as [VV0 VVS].
  split; [|split].
  { rewrite (Q3 _ (total (fun m => o_a_star (os j) * comp c (unit_position (os j) (kep_warp (os j)) (ts m))) N)).
    { f_equal. rewrite Rmult_comm, <- total_scale. apply total_ext. intros m _. rewrite posS. ring. }
    rewrite VP0. apply fsum_total. intros m Hm. apply (F (set_ix 2 m (at_rpc 0 j c)) (ts m) Hj (G (set_ix 2 m (at_rpc 0 j c)) Hm)). }
  { rewrite Rmult_comm. apply Q4. rewrite VV0. apply fsum_total. intros m Hm. apply (F (set_ix 2 m (at_rpc 0 j c)) (ts m) Hj (G (set_ix 2 m (at_rpc 0 j c)) Hm)). }
  intros m Hm. destruct (F (set_ix 2 m (at_rpc (S m) j c)) (ts m) Hj (G (set_ix 2 m (at_rpc (S m) j c)) Hm)) as (_ & F2 & _ & F4). split.
  { rewrite posP. apply Q3. rewrite VPS. exact F2. }
  rewrite Rmult_comm. apply Q4. rewrite VVS. exact F4.
Qed.
End M.

Lemma posvel_example : exists os o, consts_ok ek /\ system ek 2 (ex_sys_args 2 ex_bs) (fun j => ex_b_args (ex_bs j)) os /\
  kep_init ek (ex_sys_args 2 ex_bs) = Ok o /\ is_vector 3 (vector 3 INR) /\
  (forall m, (m < 3)%nat -> aget (vector 3 INR) (at_time m) = Fin (INR m)) /\ 0 < o_m_planet (os 0%nat) /\ 0 < o_m_star (os 1%nat).
Proof.
  destruct ex_system as (os & Sy & _). destruct (system_orbit ek 2 _ _ os ek_ok Sy) as (o & Ho & _). exists os, o.
  split; [exact ek_ok|]. split; [exact Sy|]. split; [exact Ho|]. split; [apply vector_is|]. split; [reflexivity|].
  destruct (ex_b 0 ltac:(lra)) as (o0 & A1 & _ & A3 & _). destruct (ex_b 2 ltac:(lra)) as (o1 & B1 & _ & _ & B4 & _).
  assert (I0 := sy_init _ _ _ _ _ Sy 0%nat ltac:(lia)). assert (I1 := sy_init _ _ _ _ _ Sy 1%nat ltac:(lia)). cbn [ex_bs] in I0, I1.
  rewrite A1 in I0. rewrite B1 in I1. apply Ok_inj in I0. apply Ok_inj in I1. subst. split; assumption.
Qed.
