(** * Rounding errors in SimpleTransitOrbit *)
From Coq Require Import Reals Lra Lia Psatz Bool List ZArith.
From Verif Require Import Num CoreOps Inst M_units M_kepler M_simple Spec_orbit Spec_params Spec_simple Spec_float Spec_float2 L_real L_float L_float2 L_float3.
Open Scope R_scope.

(** d is the time since the nearest mid-transit, up to the error E *)
Definition since_mid (x : sargs R) (t d E : R) : Prop :=
  (exists q : Z, Rabs (d - (t - smid x q)) <= E) /\ forall q : Z, Rabs d <= Rabs (t - smid x q) + E.

Lemma abs_split a b : Rabs a <= b -> - b <= a <= b.
Proof. intro H. unfold Rabs in H. destruct (Rcase_abs a); lra. Qed.
Lemma abs_sub a b : Rabs (a - b) <= Rabs a + Rabs b.
Proof. assert (K := Rabs_triang a (- b)). rewrite Rabs_Ropp in K. exact K. Qed.

Section V.
Variable u : R.
Variable rd : rounder.
Hypothesis Acc : accurate u rd.
Let v := u / (1 - u).
Let U := proj1 Acc.
Ltac simF := cbn [nlit nadd nsub nmul ndiv nneg nsqrt nsin ncos nasin nacos natan2 nexp nlog
  nabs nfloor nmod npowr nkepler_sin nkepler_cos nzl npadr nsqz nlt nle nband nsw rounded npw] in *.

Lemma rd_err op a b r B : Rabs r <= B -> Rabs (rd op a b r - r) <= u * B.
Proof. intro H. assert (K := proj2 Acc op a b r). assert (U' := U). eapply Rle_trans; [exact K|]. apply Rmult_le_compat_l; [lra|exact H]. Qed.

Lemma half_err a b P : 0 < P -> Rabs (rd OMul a b (rd OLit (0.5) 0 0.5 * P) - P / 2) <= 1.01 * (u * P).
Proof.
  intro HP. assert (U' := U). assert (A := rd_err OLit 0.5 0 0.5 0.5 ltac:(rewrite Rabs_pos_eq; lra)). set (h := rd OLit 0.5 0 0.5) in *. apply abs_split in A.
  assert (B : Rabs (h * P) <= 0.51 * P). { rewrite Rabs_mult, (Rabs_pos_eq P) by lra. apply Rmult_le_compat_r; [lra|]. apply Rabs_le. lra. }
  assert (C := rd_err OMul a b _ _ B). apply abs_split in C. apply Rabs_le. set (m := rd OMul a b (h * P)) in *. nra.
Qed.

Section X.
Variable x : sargs R.
Hypothesis HP : 0 < sa_period x.
Local Notation P := (sa_period x).
Local Notation t0 := (dflt 0 (sa_t0 x)).
Local Notation o := (computed_orbit rd x).

Lemma zero_lit : rd OLit 0 0 0 = 0. Proof. apply (rd_zero u rd Acc). Qed.
Lemma o_period : s_period o = P. Proof. reflexivity. Qed.
Lemma o_t0 : s_t0 o = t0. Proof. cbn. unfold dflt. destruct (sa_t0 x); [reflexivity|apply zero_lit]. Qed.
Lemma o_half : Rabs (s_half_period o - P / 2) <= 1.01 * (u * P).
Proof. cbn. apply half_err. exact HP. Qed.
Lemma o_ref : Rabs (s_ref_time o - (t0 - s_half_period o)) <= u * (Rabs t0 + 0.52 * P).
Proof.
  assert (U' := U). change (s_ref_time o) with (rd OSub (s_t0 o) (s_half_period o) (s_t0 o - s_half_period o)). rewrite o_t0. apply rd_err.
  eapply Rle_trans; [apply abs_sub|]. assert (K := abs_split _ _ o_half). apply Rplus_le_compat_l. rewrite Rabs_pos_eq; nra.
Qed.
Lemma dt_err t : exists q : Z, Rabs (@simple_dt R bool (rounded rd) o t - (t - smid x q)) <= u * (Rabs (t - t0) + 1.1 * Rabs t0 + 4.7 * P) /\
  Rabs (@simple_dt R bool (rounded rd) o t) <= P / 2 + 2.6 * (u * P).
Proof.
  assert (U' := U). unfold simple_dt. simF. rewrite o_period. assert (H := abs_split _ _ o_half). assert (F := abs_split _ _ o_ref).
  set (h := s_half_period o) in *. set (f := s_ref_time o) in *. assert (T0 := Rabs_pos t0). assert (T1 := Rabs_pos (t - t0)).
  assert (T2 := Rle_abs (t - t0)). assert (T3 := Rle_abs (- (t - t0))). rewrite Rabs_Ropp in T3.
  set (ad := Rabs (t - t0)) in *. set (a0 := Rabs t0) in *. set (d := t - t0) in *.
  assert (Ef : t - f = d + (t0 - f)) by (unfold d; ring).
  assert (u0 : 0 <= u * P) by nra. assert (u1 : u * (u * P) <= 0.01 * (u * P)) by nra. assert (u2 : 0 <= u * a0) by nra. assert (u3 : u * (u * a0) <= 0.01 * (u * a0)) by nra.
  assert (u4 : u * P <= 0.01 * P) by nra. assert (u5 : 0 <= u * ad) by nra.
  assert (A : Rabs (t - f) <= ad + 0.52 * P + u * a0 + 0.53 * (u * P)). { rewrite Ef. apply Rabs_le. lra. }
  assert (A' := abs_split _ _ (rd_err OSub t f _ _ A)). set (a := rd OSub t f (t - f)) in *.
  assert (B := Rmodulo_bounds a P HP). destruct (Rmodulo_eq a P) as [q Q]. set (m := Rmodulo a P) in *. exists q.
  assert (M : Rabs m <= P) by (apply Rabs_le; lra). assert (M' := abs_split _ _ (rd_err OMod a P _ _ M)). set (m' := rd OMod a P m) in *.
  assert (C : Rabs (m' - h) <= P / 2 + 2.01 * (u * P)) by (apply Rabs_le; lra).
  assert (C' := abs_split _ _ (rd_err OSub m' h _ _ C)). set (dt := rd OSub m' h (m' - h)) in *. unfold smid.
  assert (Eq : t - (t0 + IZR q * P) = d - IZR q * P) by (unfold d; ring). rewrite Eq.
  split; apply Rabs_le; lra.
Qed.
Lemma dt_ok t : since_mid x t (@simple_dt R bool (rounded rd) o t) (time_error u x t).
Proof.
  assert (U' := U). destruct (dt_err t) as (q & A & B). set (dt := @simple_dt R bool (rounded rd) o t) in *. unfold since_mid, time_error.
  assert (T0 := Rabs_pos t0). assert (T1 := Rabs_pos (t - t0)). assert (u2 : 0 <= u * Rabs t0) by nra. assert (u5 : 0 <= u * Rabs (t - t0)) by nra. assert (u0 : 0 <= u * P) by nra.
  split; [exists q; lra|]. intro q0. set (e1 := u * (Rabs (t - t0) + 1.1 * Rabs t0 + 4.7 * P)) in *.
  assert (E : e1 + 5.2 * (u * P) <= u * (Rabs (t - t0) + 2 * Rabs t0 + 10 * P)) by (unfold e1; lra).
  destruct (Z.eq_dec q q0) as [<-|N].
  - assert (K := Rabs_triang (dt - (t - smid x q)) (t - smid x q)). replace (dt - (t - smid x q) + (t - smid x q)) with dt in K by ring. lra.
  - assert (G : P <= Rabs (smid x q - smid x q0)).
    { unfold smid. replace (t0 + IZR q * P - (t0 + IZR q0 * P)) with (IZR (q - q0) * P) by (rewrite minus_IZR; ring). rewrite Rabs_mult, (Rabs_pos_eq P), <- abs_IZR by lra.
      assert (1 <= IZR (Z.abs (q - q0))) by (apply IZR_le; lia). nra. }
    assert (K := Rabs_triang (- (t - smid x q)) (t - smid x q0)). replace (- (t - smid x q) + (t - smid x q0)) with (smid x q - smid x q0) in K by ring. rewrite Rabs_Ropp in K.
    assert (K' := Rabs_triang (- (dt - (t - smid x q))) dt). replace (- (dt - (t - smid x q)) + dt) with (t - smid x q) in K' by ring. rewrite Rabs_Ropp in K'. lra.
Qed.
Lemma decide t tol tol' e : Rabs (tol' - tol) <= e -> decides x t tol (time_error u x t + e) (Rltb (Rabs (@simple_dt R bool (rounded rd) o t)) tol').
Proof.
  intro H. apply abs_split in H. destruct (dt_ok t) as [(q & A) B]. set (dt := @simple_dt R bool (rounded rd) o t) in *. split.
  - intros [q' Q]. apply Rltb_true. specialize (B q'). lra.
  - intro M. apply Rltb_true in M. exists q. assert (K := Rabs_triang (- (dt - (t - smid x q))) dt). replace (- (dt - (t - smid x q)) + dt) with (t - smid x q) in K by ring. rewrite Rabs_Ropp in K. lra.
Qed.
End X.
End V.
