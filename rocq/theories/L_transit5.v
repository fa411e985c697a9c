(** * in_transit with one exposure time per observation *)
From Coq Require Import Reals List Bool Arith ZArith Lra Lia Psatz Sorted.
From Verif Require Import Num CoreOps Inst M_units M_kepler M_fin M_tensor Spec_orbit Spec_params Spec_array
  L_real L_orbit L_params3 L_params4 L_fl L_fl2 L_fl3 L_tens L_shape L_transit L_transit2 L_transit3 L_transit4.
Import ListNotations.
Open Scope R_scope.

Lemma cst_pp1 a : per_planet 1 a -> cst a.
Proof.
  intros [W [E|E]] i i'; apply (W _ E); intros d Hd.
  - destruct d; cbn in Hd; contradiction.
  - destruct d as [|d]; cbn in Hd; [contradiction|]. destruct d; contradiction.
Qed.

Lemma vec_osn N es : OSn N (Some (vector N es)).
Proof. right. split; [reflexivity|]. intros i i' E. cbn. rewrite E. reflexivity. Qed.
Section W.
Variables (n N : nat) (o : orbit tens).
Hypothesis So : orbit_sn n o.
Hypothesis Epo : En n (o_period o).
Hypothesis circ : o_ecc o = None.
Variables (r : tens) (cp : fl -> fl -> fl -> fl -> fl -> fl -> fl -> fl * fl * fl).
Hypothesis Hr : Sn n r.

Lemma window_circ_en : exists h, transit_window o (lift_cp cp) r = ((- h)%num, h, nzl (o_a o)) /\ En n h /\ En n (- h)%num.
Proof.
  unfold transit_window. rewrite circ. eexists. split; [reflexivity|].
  assert (S1 := os_a _ _ So). assert (S2 := os_r _ _ So). assert (S4 := os_b _ _ So). assert (S5 := os_si _ _ So).
  match goal with |- En n ?h /\ _ => assert (E : En n h) end.
  { apply En_map2l; [|apply Sn_lit]. apply En_map2l; [apply En_map2r; [apply Sn_lit|exact Epo]|].
    repeat first [assumption | apply Sn_lit | apply Sn_map | apply Sn_map2]. }
  split; [exact E|apply En_map; exact E].
Qed.
End W.

Lemma circ_at n (o : orbit tens) i oj : (i O < n)%nat -> orbit_at i o = fin_orbit oj -> o_ecc oj = None -> o_ecc o = None.
Proof.
  intros Hi E Hc. apply (f_equal (fun z => o_ecc z)) in E. cbn in E. rewrite Hc in E. cbn in E. destruct (o_ecc o); [discriminate|reflexivity].
Qed.

Section S.
Variables (k : consts) (n N : nat) (x : kargs tens) (xs : nat -> kargs R) (os : nat -> orbit R).
Variables (r : tens) (rs : nat -> R) (es : nat -> R) (t : tens) (ts : nat -> R).
Variable cp : fl -> fl -> fl -> fl -> fl -> fl -> fl -> fl * fl * fl.
Hypothesis kok : consts_ok k.
Hypothesis sys : system k n x xs os.
Hypothesis Hr : planet_values n r rs.
Hypothesis Ht : is_vector N t.
Hypothesis Hts : forall m, (m < N)%nat -> aget t (at_time m) = Fin (ts m).
Hypothesis circ : forall j, (j < n)%nat -> ka_ecc (xs j) = None.

Lemma texp_shape_error : (2 <= n)%nat -> N <> n -> N <> 1%nat ->
  exists o, kep_init k x = Ok o /\
    kep_in_transit o (kep_warp o) (lift_cp cp) t r (Some (vector N es)) false = Err ShapeErr.
Proof.
  intros Hn2 HNn HN1. destruct (system_orbit k n x xs os kok sys) as (o & Ho & So & Eno & Epo & At). exists o. split; [exact Ho|].
  assert (Hn := sy_n _ _ _ _ _ sys).
  assert (Oc : o_ecc o = None).
  { apply (circ_at n o ix0 (os 0%nat) Hn (At ix0 Hn)). apply (kep_circ k _ _ (sy_init _ _ _ _ _ sys _ Hn)). apply circ, Hn. }
  unfold kep_in_transit, transit_mask.
  destruct (window_circ_en n o So Epo Oc r cp (pp_sn _ _ (proj1 Hr))) as (h & -> & Eh & Eh').
  unfold shape0. rewrite (proj2 Ht). cbn [last rbind].
  assert (T : tall (teq0 (nzl (o_a o))) = Ok true).
  { unfold tall, teq0. cbn [ash amap nzl NumT]. assert (Z : forall l, forallb (aget (amap feq0 (amap (fun _ : fl => Fin 0) (o_a o)))) l = true).
    { intro l. apply forallb_forall. intros i _. cbn. apply L_fl.Reqb_true. reflexivity. }
    destruct (os_a _ _ So) as [[E _]|[E _]]; rewrite E; cbn [rmap]; rewrite Z; reflexivity. }
  rewrite T. cbn [rbind].
  assert (Bc : bc [n] [N] = None).
  { cbn. destruct (Nat.eqb_spec n N); [lia|]. destruct (Nat.eqb_spec n 1); [lia|]. destruct (Nat.eqb_spec N 1); [lia|]. reflexivity. }
  unfold arange_mask, tany_last. cbn [nband nle nsub nadd nmul nlit NumT amap2 ash alit vector bcr bc].
  assert (Sh : ash h = Ok [n]) by (destruct (proj2 Eh) as [E|E]; [exact E|lia]). assert (Sh' : ash (- h)%num = Ok [n]) by exact Sh.
  rewrite Sh, Sh'. cbn [bcr]. rewrite Bc. reflexivity.
Qed.

(** one planet *)
Lemma texp_one_planet : n = 1%nat -> 
  0 <= rs 0%nat /\ o_r_star (os 0%nat) + rs 0%nat < o_a (os 0%nat) /\ 0 <= o_sin_incl (os 0%nat) ->
  (forall q, (q < N)%nat -> 0 <= es q) ->
  exists o l, kep_init k x = Ok o /\
    kep_in_transit o (kep_warp o) (lift_cp cp) t r (Some (vector N es)) false = Ok l /\ StronglySorted lt l /\
    forall m, In m l <-> (m < N)%nat /\ exists q s, (q < N)%nat /\ Rabs (s - ts m) <= es q / 2 /\ transits k (os 0%nat) (rs 0%nat) s.
Proof.
  intros Hn1 (G2 & G3 & G4) Hpos. subst n. destruct (system_orbit k 1 x xs os kok sys) as (o & Ho & So & Eno & Epo & At). exists o.
  assert (Hn := sy_n _ _ _ _ _ sys). assert (Hi := sy_init _ _ _ _ _ sys _ Hn). assert (Hp := sy_phys _ _ _ _ _ sys _ Hn).
  assert (oc : o_ecc (os 0%nat) = None) by (apply (kep_circ k _ _ Hi); apply circ, Hn).
  assert (Oc : o_ecc o = None) by (apply (circ_at 1 o ix0 (os 0%nat) Hn (At ix0 Hn) oc)).
  (* all attributes are the same at every index *)
  assert (Aa : forall i, args_at i x = fin_args (xs 0%nat)).
  { intro i. rewrite <- (sy_at _ _ _ _ _ sys 0%nat Hn). destruct (sy_args _ _ _ _ _ sys).
    assert (Oo : forall a : option tens, opt_per_planet 1 a -> option_map (fun v : tens => aget v i) a = option_map (fun v : tens => aget v (at_planet 0)) a).
    { intros [a|] Pa; [|reflexivity]. cbn. f_equal. apply (cst_pp1 a Pa). }
    assert (Qq : forall a : option (qty tens), qty_per_planet 1 a -> option_map (map_qty (fun v : tens => aget v i)) a = option_map (map_qty (fun v : tens => aget v (at_planet 0))) a).
    { intros [a|] Pa; [|reflexivity]. cbn. unfold map_qty. do 2 f_equal. apply (cst_pp1 _ Pa). }
    unfold args_at, map_args.
    rewrite (Qq _ pl_period), (Qq _ pl_a), (Qq _ pl_duration), (Qq _ pl_mp), (Qq _ pl_ms), (Qq _ pl_rs), (Qq _ pl_rho),
      (Oo _ pl_t0), (Oo _ pl_tper), (Oo _ pl_incl), (Oo _ pl_b), (Oo _ pl_ecc), (Oo _ pl_omega), (Oo _ pl_sin), (Oo _ pl_cos),
      (Oo _ pl_Omega), (Oo _ pl_ror). reflexivity. }
  assert (At' : forall i, orbit_at i o = fin_orbit (os 0%nat)).
  { intro i. assert (E := kep_init_at k i x). rewrite Aa, Ho in E. cbn [rmap] in E.
    rewrite (kep_init_fin k kok (xs 0%nat) (os 0%nat) Hi Hp (sy_dur _ _ _ _ _ sys _ Hn)) in E. apply Ok_inj in E. symmetry. exact E. }
  assert (Rr : forall i, aget r i = Fin (rs 0%nat)).
  { intro i. rewrite (cst_pp1 r (proj1 Hr) i (at_planet 0)). apply (proj2 Hr). exact Hn. }
  set (entry := fun m q => transit_mask (fin_orbit (os 0%nat)) (kep_warp (fin_orbit (os 0%nat))) cp (Fin (ts m)) (Fin (rs 0%nat)) (Some (Fin (es q)))).
  exists (filter (fun m => existsb (fun q => fst (entry m q)) (seq 0 N)) (seq 0 N)). split; [exact Ho|].
  assert (M : forall m q, (q < N)%nat -> exists b, entry m q = (b, Fin 0) /\
     (b = true <-> exists s, Rabs (s - ts m) <= es q / 2 /\ transits k (os 0%nat) (rs 0%nat) s)).
  { intros m q Hq.
    destruct (mask_circ k kok (xs 0%nat) (os 0%nat) Hi Hp oc (rs 0%nat) (kep_warp (fin_orbit (os 0%nat))) cp (Fin (ts m))
      (ts m - o_t0 (os 0%nat)) (kep_warp_fin (os 0%nat) true (ts m)) (Some (es q)) G2 G3 G4 (Hpos q Hq)) as (b & E & B).
    exists b. split; [exact E|]. rewrite B. cbn [pad_of]. split; intros (s & S1 & S2).
    - exists (o_t0 (os 0%nat) + s). split; [|exact S2]. replace (o_t0 (os 0%nat) + s - ts m) with (s - (ts m - o_t0 (os 0%nat))) by ring. exact S1.
    - exists (s - o_t0 (os 0%nat)). split; [replace (s - o_t0 (os 0%nat) - (ts m - o_t0 (os 0%nat))) with (s - ts m) by ring; exact S1|].
      replace (o_t0 (os 0%nat) + (s - o_t0 (os 0%nat))) with s by ring. exact S2. }
  split; [|split; [apply filter_seq_sorted|]].
  - unfold kep_in_transit.
    assert (Mat := mask_at' N 0 o (kep_warp o) t cp r (Some (vector N es)) (vec_osn N es) (fun _ _ => (false, NaN)) (fun i => kep_warp (orbit_at i o)) (fun i => kep_warp_at1 o i t)
      (fun m j (Hm : (m < 0)%nat) _ => False_ind _ (Nat.nlt_0_r m Hm))).
    assert (Sh : let '(m, flag) := transit_mask (B := btens) o (kep_warp o) (lift_cp cp) t r (Some (vector N es)) in ash m = Ok [N; N] /\ flag = nzl (o_a o)).
    { unfold transit_mask. destruct (window_circ_en 1 o So Epo Oc r cp (pp_sn _ _ (proj1 Hr))) as (h & -> & Eh & Eh').
      assert (D : ash (since_transit o (kep_warp o) t) = Ok [1%nat; N]).
      { apply (since_shape 1 N o So Epo (kep_warp o) t). apply (T1_map2l 1 N fsub); [apply padr_T1; apply Ht|apply (os_t0 _ _ So)]. }
      split; [|reflexivity].
      assert (B1 : bc [1%nat] [N] = Some [N]) by (cbn; destruct N as [|[|?]]; reflexivity).
      assert (B2 : bc [N] [1%nat; N] = Some [N; N]) by (cbn; destruct N as [|[|?]]; cbn; rewrite ?Nat.eqb_refl; reflexivity).
      assert (B3 : bc [1%nat; N] [N] = Some [N; N]) by (cbn; destruct N as [|[|?]]; cbn; rewrite ?Nat.eqb_refl; reflexivity).
      assert (B4 : bc [N; N] [N; N] = Some [N; N]) by (cbn; rewrite !Nat.eqb_refl; reflexivity).
      cbn [nband nle nsub nadd nmul nlit NumT amap2 ash alit vector bcr bc].
      change (ash (nneg h)) with (ash h). rewrite D.
      assert (Sh : bcr (ash h) (bcr (Ok []) (Ok [N])) = Ok [N]) by (destruct (proj1 Eh) as [[E _]|[E _]]; rewrite E; cbn [bcr]; [reflexivity|]; change (bc [] [N]) with (Some [N]); cbn [bcr]; rewrite B1; reflexivity).
      change (ash (nneg h)) with (ash h). cbn [bcr bc] in Sh. rewrite Sh. cbn [bcr]. rewrite B2, B3. cbn [bcr]. rewrite B4. reflexivity. }
    change (arr bool) with btens in Mat.
    destruct (transit_mask (B := btens) o (kep_warp o) (lift_cp cp) t r (Some (vector N es))) as [m flag]. destruct Sh as [Sm ->].
    unfold shape0. rewrite (proj2 Ht). cbn [last rbind].
    assert (T : tall (teq0 (nzl (o_a o))) = Ok true).
    { unfold tall, teq0. cbn [ash amap nzl NumT]. assert (Z : forall l, forallb (aget (amap feq0 (amap (fun _ : fl => Fin 0) (o_a o)))) l = true).
      { intro l. apply forallb_forall. intros i _. cbn. apply L_fl.Reqb_true. reflexivity. }
      destruct (os_a _ _ So) as [[E _]|[E _]]; rewrite E; cbn [rmap]; rewrite Z; reflexivity. }
    rewrite T. cbn [rbind]. unfold arange_mask, tany_last. rewrite Sm. cbn [ash]. rewrite Nat.eqb_refl. f_equal.
    assert (Ent : forall m0 q, (m0 < N)%nat -> (q < N)%nat -> aget m (cons_ix q (cons_ix m0 ix0)) = fst (entry m0 q)).
    { intros m0 q Hm0 Hq0. specialize (Mat (cons_ix q (cons_ix m0 ix0))).
      assert (Ve : aget (vector N es) (cons_ix q (cons_ix m0 ix0)) = Fin (es q)).
      { cbn. destruct (Nat.eqb_spec N 1); [|reflexivity]. replace q with 0%nat by lia. reflexivity. }
      cbn [option_map] in Mat. rewrite Ve in Mat. rewrite At', Rr in Mat.
      rewrite (time_at' N t ts Ht Hts q m0 Hm0) in Mat. apply (f_equal fst) in Mat. exact Mat. }
    assert (G : forall l, (forall q, In q l -> (q < N)%nat) ->
     filter (fun i => existsb (fun j => aget m (cons_ix j (cons_ix i ix0))) (seq 0 N)) l
     = filter (fun q => existsb (fun j => fst (entry q j)) (seq 0 N)) l).
    { induction l as [|q l IH]; intro Hl; [reflexivity|]. cbn [filter].
      rewrite IH by (intros; apply Hl; right; assumption).
      assert (E : forall l', (forall q', In q' l' -> (q' < N)%nat) -> existsb (fun j => aget m (cons_ix j (cons_ix q ix0))) l' = existsb (fun j => fst (entry q j)) l').
      { induction l' as [|j l' IH']; [reflexivity|]. intro Hl'. cbn [existsb]. rewrite IH' by (intros; apply Hl'; right; assumption). f_equal. apply Ent; [apply Hl; left; reflexivity|apply Hl'; left; reflexivity]. }
      rewrite E; [reflexivity|]. intros q' Hq'. apply in_seq in Hq'. lia. }
    apply G. intros q Hq. apply in_seq in Hq. lia.
  - intro m. rewrite filter_In, in_seq, existsb_exists. split.
    + intros [H1 (q & Hq & E)]. apply in_seq in Hq. split; [lia|]. destruct (M m q ltac:(lia)) as (b & Eb & B).
      rewrite Eb in E. cbn in E. apply B in E. destruct E as (s & S1 & S2). exists q, s. split; [lia|auto].
    + intros [H1 (q & s & Hq & S1 & S2)]. split; [lia|]. exists q. split; [apply in_seq; lia|].
      destruct (M m q Hq) as (b & Eb & B). rewrite Eb. cbn. apply B. exists s. auto.
Qed.
End S.
