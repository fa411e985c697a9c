(** * Rounding errors of light curves: exposures and whole curves *)
From Coq Require Import Reals Lra Lia Psatz Bool List Arith ZArith.
From Verif Require Import Num CoreOps Inst CoreFlux M_units M_kepler M_fin M_tensor M_limbdark Spec_orbit Spec_array Spec_light Spec_undef Spec_dist Spec_lip Spec_float Spec_float2 Spec_float3 Spec_float5
  L_real L_flux L_light1 L_light2 L_light3 L_light5 L_light7 L_lip2 L_dist3 L_undef L_float L_float2 L_float13 L_float15 L_float16 L_float17.
Import ListNotations.
Local Notation length := List.length.
Open Scope R_scope.

Lemma combine_map {A} (f g : A -> R) l : fold_right Rplus 0 (map (fun p => fst p * snd p) (combine (map f l) (map g l))) = fold_right Rplus 0 (map (fun i => f i * g i) l).
Proof. induction l as [|x l IH]; cbn; [reflexivity|]. rewrite IH. reflexivity. Qed.
Lemma list_seq (l : list R) : l = map (fun i => nth i l 0) (seq 0 (length l)).
Proof. apply (nth_ext _ _ 0 0); [rewrite map_length, seq_length; reflexivity|]. intros i Hi. rewrite (nth_indep (map _ _) 0 (nth O l 0)) by (rewrite map_length, seq_length; exact Hi). rewrite (map_nth (fun i => nth i l 0)), seq_nth by exact Hi. reflexivity. Qed.

Section V.
Variable u eps : R.
Variable rd : rounder.
Hypothesis Acc : accurate u rd.
Variable F : FluxOp.
Hypothesis HF : solves eps F.
Variables u1 u2 : R.
Hypothesis Hlaw : 0 <= u1 /\ u1 + u2 <= 1 /\ 0 <= u1 + 2 * u2.
Let U := proj1 Acc.

(** the time of a node *)
Lemma node_time t e x a b c d f g : -1/2 <= x <= 1/2 -> Rabs (rd OAdd a b (t + rd OMul c d (e * rd OLit f g x)) - (t + e * x)) <= u * (Rabs t + 2 * Rabs e).
Proof.
  intros Hx. assert (U' := U). assert (L := proj2 Acc OLit f g x). set (x' := rd OLit f g x) in *. clearbody x'. assert (Ax : Rabs x <= 1 / 2) by (apply Rabs_le; lra).
  assert (Lx : Rabs (x' - x) <= u / 2) by (eapply Rle_trans; [exact L|]; nra).
  assert (M := proj2 Acc OMul c d (e * x')). set (q := rd OMul c d (e * x')) in *. clearbody q. assert (Pe := Rabs_pos e). assert (Pt := Rabs_pos t).
  assert (X1 : Rabs x' <= 0.505). { replace x' with ((x' - x) + x) by ring. eapply Rle_trans; [apply Rabs_triang|]. lra. }
  rewrite Rabs_mult in M. assert (M1 : Rabs (q - e * x') <= 0.505 * (u * Rabs e)) by (eapply Rle_trans; [exact M|]; assert (Rabs e * Rabs x' <= Rabs e * 0.505) by (apply Rmult_le_compat_l; lra); nra).
  assert (M2 : Rabs (q - e * x) <= 1.005 * (u * Rabs e)).
  { replace (q - e * x) with ((q - e * x') + e * (x' - x)) by ring. eapply Rle_trans; [apply Rabs_triang|]. rewrite Rabs_mult. assert (Rabs e * Rabs (x' - x) <= Rabs e * (u / 2)) by (apply Rmult_le_compat_l; lra). lra. }
  assert (Q : Rabs q <= 0.52 * Rabs e). { replace q with ((q - e * x) + e * x) by ring. eapply Rle_trans; [apply Rabs_triang|]. rewrite Rabs_mult. assert (Rabs e * Rabs x <= Rabs e * (1 / 2)) by (apply Rmult_le_compat_l; lra). nra. }
  assert (R := proj2 Acc OAdd a b (t + q)). assert (T := Rabs_triang t q). set (s := rd OAdd a b (t + q)) in *. clearbody s.
  replace (s - (t + e * x)) with ((s - (t + q)) + (q - e * x)) by ring. eapply Rle_trans; [apply Rabs_triang|].
  assert (u * Rabs (t + q) <= u * (Rabs t + 0.52 * Rabs e)) by (apply Rmult_le_compat_l; lra). nra.
Qed.

Variables (P : nat -> R -> R * R * R) (rst rs : nat -> R).
Let PF (j : nat) (t : fl) := fin3 (P j (value t)).
Lemma flux_point j t : 0 < rst j -> 0 <= rs j -> exists w, fluxM rd F (computed_law rd u1 u2) PF (fun j => Fin (rst j)) (fun j => Fin (rs j)) j (Fin t) = Fin w /\
  Rabs (w - flux_at u1 u2 (P j t) (rs j) (rst j)) <= flux_error u eps + distance_error u (rs j / rst j) 0.
Proof.
  intros Hs Hr. destruct (P j t) as [[X Y] Z] eqn:E.
  apply (point u eps rd Acc F HF u1 u2 Hlaw PF (fun j => Fin (rst j)) (fun j => Fin (rs j)) j (Fin t) X Y Z (rs j) (rst j)); try reflexivity; try assumption.
  unfold PF. cbn [value]. rewrite E. reflexivity.
Qed.

Lemma mean_point nodes weights osam order j t e (g : R -> R) E : stencil osam order = Ok (nodes, weights) -> 0 < rst j -> 0 <= rs j ->
  (forall x s, In x nodes -> Rabs (s - (t + e * x)) <= u * (Rabs t + 2 * Rabs e) -> Rabs (flux_at u1 u2 (P j s) (rs j) (rst j) - g (t + e * x)) <= E) ->
  exists w, meanM rd F (computed_law rd u1 u2) PF (fun j => Fin (rst j)) (fun j => Fin (rs j)) nodes weights j (Fin t) (Fin e) = Fin w /\
    Rabs (w - node_mean nodes weights g t e) <= (1 + u) ^ (length nodes + 2) * (1 + (flux_error u eps + distance_error u (rs j / rst j) 0)) - 1 + E.
Proof.
  intros St Hs Hr HE. assert (U' := U). destruct (quadrature _ _ _ _ St) as (Ln & _ & _ & Wp & W1 & Nx & _).
  set (K := length nodes) in *. set (E0 := flux_error u eps + distance_error u (rs j / rst j) 0).
  (* the machine's times, fluxes and products *)
  set (q i := rd OMul e (rd OLit (nth i nodes 0) 0 (nth i nodes 0)) (e * rd OLit (nth i nodes 0) 0 (nth i nodes 0))).
  set (s i := rd OAdd t (q i) (t + q i)).
  assert (Hf : forall i, exists w, fluxM rd F (computed_law rd u1 u2) PF (fun j => Fin (rst j)) (fun j => Fin (rs j)) j (Fin (s i)) = Fin w /\ Rabs (w - flux_at u1 u2 (P j (s i)) (rs j) (rst j)) <= E0) by (intro i; apply flux_point; assumption).
  set (a i := value (fluxM rd F (computed_law rd u1 u2) PF (fun j => Fin (rst j)) (fun j => Fin (rs j)) j (Fin (s i)))).
  assert (Ha : forall i, fluxM rd F (computed_law rd u1 u2) PF (fun j => Fin (rst j)) (fun j => Fin (rs j)) j (Fin (s i)) = Fin (a i) /\ Rabs (a i - flux_at u1 u2 (P j (s i)) (rs j) (rst j)) <= E0).
  { intro i. unfold a. destruct (Hf i) as (w & -> & Dw). split; [reflexivity|exact Dw]. }
  set (w' i := rd OLit (nth i weights 0) 0 (nth i weights 0)). set (p i := rd OMul (w' i) (a i) (w' i * a i)).
  assert (Em : meanM rd F (computed_law rd u1 u2) PF (fun j => Fin (rst j)) (fun j => Fin (rs j)) nodes weights j (Fin t) (Fin e) = fold_left (@nadd fl bool (rounded_fl rd)) (map Fin (map p (seq 0 K))) (Fin 0)).
  { unfold meanM, fsum. f_equal. rewrite map_map. apply map_ext. intro i. cbn [nlit nadd nmul rounded_fl NF fmul fadd rnd value]. fold (q i). fold (s i). rewrite (proj1 (Ha i)). reflexivity. }
  rewrite Em. destruct (fsum_machine u rd Acc (map p (seq 0 K)) 0) as (w & Ew & Dw). exists w. split; [exact Ew|]. clear Ew Em.
  rewrite map_length, seq_length, Rplus_0_l, Rabs_R0, Rplus_0_l in Dw.
  assert (E00 : 0 <= E0) by (eapply Rle_trans; [apply Rabs_pos|apply (proj2 (Ha O))]).
  assert (Ba : forall i, Rabs (a i) <= 1 + E0).
  { intro i. replace (a i) with ((a i - flux_at u1 u2 (P j (s i)) (rs j) (rst j)) + flux_at u1 u2 (P j (s i)) (rs j) (rst j)) by ring. eapply Rle_trans; [apply Rabs_triang|].
    assert (R := rel_range u rd Acc u1 u2 Hlaw). assert (Rabs (flux_at u1 u2 (P j (s i)) (rs j) (rst j)) <= 1) by (unfold flux_at; apply Rabs_le; destruct (R (sqrt (vx (P j (s i)) * vx (P j (s i)) + vy (P j (s i)) * vy (P j (s i))) / rst j) (rs j / rst j) (vz (P j (s i)) / rst j)); lra).
    assert (D := proj2 (Ha i)). lra. }
  assert (Nm : forall f : nat -> R, forall i, (i < K)%nat -> nth i (map f (seq 0 K)) 0 = f i).
  { intros f i Hi. rewrite (nth_indep _ 0 (f O)) by (rewrite map_length, seq_length; exact Hi). rewrite map_nth, seq_nth by exact Hi. reflexivity. }
  destruct (weighted u rd Acc weights (map a (seq 0 K)) (map p (seq 0 K)) (1 + E0)) as [A1 A2].
  { rewrite map_length, seq_length. symmetry. exact Ln. } { rewrite !map_length. reflexivity. } { exact Wp. }
  { rewrite map_length, seq_length. intros i Hi. rewrite Nm by exact Hi. apply Ba. }
  { rewrite map_length, seq_length. intros i Hi. rewrite !Nm by exact Hi. unfold p, w'. assert (Wi : 0 < nth i weights 0). { apply (proj1 (List.Forall_forall _ _) Wp). apply nth_In. lia. }
    set (wi := nth i weights 0) in *. clearbody wi. assert (L := proj2 Acc OLit wi 0 wi). rewrite (Rabs_pos_eq wi) in L by lra. set (l := rd OLit wi 0 wi) in *. clearbody l. assert (M := proj2 Acc OMul l (a i) (l * a i)). rewrite Rabs_mult in M.
    assert (Al : Rabs l <= (1 + u) * wi). { replace l with ((l - wi) + wi) by ring. eapply Rle_trans; [apply Rabs_triang|]. rewrite (Rabs_pos_eq wi) by lra. lra. }
    replace (rd OMul l (a i) (l * a i) - wi * a i) with ((rd OMul l (a i) (l * a i) - l * a i) + (l - wi) * a i) by ring. eapply Rle_trans; [apply Rabs_triang|]. rewrite Rabs_mult.
    assert (Pa := Rabs_pos (a i)). assert (Rabs l * Rabs (a i) <= (1 + u) * wi * Rabs (a i)) by (apply Rmult_le_compat_r; lra). assert (Rabs (l - wi) * Rabs (a i) <= u * wi * Rabs (a i)) by (apply Rmult_le_compat_r; lra).
    assert (u * (Rabs l * Rabs (a i)) <= u * ((1 + u) * wi * Rabs (a i))) by (apply Rmult_le_compat_l; lra). cbn [pow]. nra. }
  rewrite W1, Rmult_1_r in A1, A2.
  assert (EN : node_mean nodes weights g t e = fold_right Rplus 0 (map (fun i => nth i weights 0 * g (t + e * nth i nodes 0)) (seq 0 K))).
  { unfold node_mean. rewrite (sum_combine nodes weights (fun x w => w * g (t + e * x)) Ln). reflexivity. }
  assert (EW : fold_right Rplus 0 (map (fun p => fst p * snd p) (combine weights (map a (seq 0 K)))) = fold_right Rplus 0 (map (fun i => nth i weights 0 * a i) (seq 0 K))).
  { rewrite (list_seq weights) at 1. rewrite <- Ln. apply combine_map. }
  rewrite EW in A1. rewrite EN.
  assert (A3 : Rabs (fold_right Rplus 0 (map (fun i => nth i weights 0 * a i) (seq 0 K)) - fold_right Rplus 0 (map (fun i => nth i weights 0 * g (t + e * nth i nodes 0)) (seq 0 K))) <= (E0 + E) * fold_right Rplus 0 (map (fun i => nth i weights 0) (seq 0 K))).
  { assert (G : forall l, (forall i, In i l -> (i < K)%nat) -> Rabs (fold_right Rplus 0 (map (fun i => nth i weights 0 * a i) l) - fold_right Rplus 0 (map (fun i => nth i weights 0 * g (t + e * nth i nodes 0)) l)) <= (E0 + E) * fold_right Rplus 0 (map (fun i => nth i weights 0) l)).
    { induction l as [|i l IH]; intro Hl; cbn [map fold_right]; [rewrite Rminus_0_r, Rabs_R0; lra|]. assert (Hi := Hl i (or_introl eq_refl)). assert (IH' := IH (fun k Hk => Hl k (or_intror Hk))).
      assert (Wi : 0 < nth i weights 0). { apply (proj1 (List.Forall_forall _ _) Wp). apply nth_In. lia. }
      assert (Ni : In (nth i nodes 0) nodes) by (apply nth_In; exact Hi). assert (Bi := proj1 (List.Forall_forall _ _) Nx _ Ni). cbv beta in Bi.
      assert (Gi := HE (nth i nodes 0) (s i) Ni (node_time t e _ _ _ _ _ _ _ Bi)). assert (Di := proj2 (Ha i)).
      set (X := fold_right Rplus 0 (map (fun i => nth i weights 0 * a i) l)) in *. set (Y := fold_right Rplus 0 (map (fun i => nth i weights 0 * g (t + e * nth i nodes 0)) l)) in *. set (Z := fold_right Rplus 0 (map _ l)) in *. clearbody X Y Z.
      set (wi := nth i weights 0) in *. set (gi := g (t + e * nth i nodes 0)) in *. replace (wi * a i + X - (wi * gi + Y)) with (wi * (a i - gi) + (X - Y)) by ring. eapply Rle_trans; [apply Rabs_triang|]. rewrite Rabs_mult, (Rabs_pos_eq wi) by lra.
      assert (Rabs (a i - gi) <= E0 + E). { replace (a i - gi) with ((a i - flux_at u1 u2 (P j (s i)) (rs j) (rst j)) + (flux_at u1 u2 (P j (s i)) (rs j) (rst j) - gi)) by ring. eapply Rle_trans; [apply Rabs_triang|]. lra. }
      assert (wi * Rabs (a i - gi) <= wi * (E0 + E)) by (apply Rmult_le_compat_l; lra). lra. }
    apply G. intros i Hi. apply in_seq in Hi. lia. }
  replace (fold_right Rplus 0 (map (fun i => nth i weights 0) (seq 0 K))) with 1 in A3 by (rewrite <- W1, (list_seq weights) at 1; rewrite <- Ln; reflexivity).
  set (x1 := fold_right Rplus 0 (map p (seq 0 K))) in *. set (x2 := fold_right Rplus 0 (map (fun i => nth i weights 0 * a i) (seq 0 K))) in *. set (x3 := fold_right Rplus 0 (map (fun i => nth i weights 0 * g (t + e * nth i nodes 0)) (seq 0 K))) in *. clearbody x1 x2 x3.
  replace (w - x3) with ((w - x1) + (x1 - x2) + (x2 - x3)) by ring. eapply Rle_trans; [apply Rabs_triang|]. eapply Rle_trans; [apply Rplus_le_compat_r, Rabs_triang|].
  rewrite pow_add. assert (Kp := pow_1u u rd Acc K). set (k := (1 + u) ^ K) in *. set (k2 := (1 + u) ^ 2) in *. clearbody k k2.
  assert ((k - 1) * asum (map p (seq 0 K)) <= (k - 1) * (k2 * (1 + E0))) by (apply Rmult_le_compat_l; lra). nra.
Qed.
End V.
