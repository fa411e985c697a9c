(** * Examples for C117 *)
From Coq Require Import Reals List Bool Arith ZArith String Lra Lia Psatz.
From Flocq Require Import Core Relative.
From Verif Require Import Num CoreOps Inst CoreFlux M_units M_kepler M_kwargs M_tensor M_limbdark M_dist Spec_array Spec_light Spec_dist Spec_float Spec_float2 Spec_float3 Spec_float4
  L_real L_fl L_dist1 L_dist2 L_dist3 L_float L_float2 L_float13 L_float14 Ex_dist Ex_float Ex_float2 Ex_float3.
Import ListNotations.
Local Notation length := List.length.
Open Scope R_scope.

Lemma near_is (m e : Z) r : IZR (2 ^ 52) <= r * bpow radix2 (- e) < IZR (2 ^ 53) -> Rabs (r * bpow radix2 (- e) - IZR m) < / 2 -> nearest r = IZR m * bpow radix2 e.
Proof.
  intros H1 H2. assert (B : bpow radix2 (- e) * bpow radix2 e = 1) by (rewrite <- bpow_plus; replace (- e + e)%Z with 0%Z by ring; reflexivity). assert (P := bpow_gt_0 radix2 e).
  assert (M : mag radix2 r = (e + 53)%Z :> Z).
  { apply mag_unique_pos. replace (e + 53 - 1)%Z with (52 + e)%Z by ring. replace (e + 53)%Z with (53 + e)%Z by ring. rewrite !bpow_plus.
    change (bpow radix2 52) with (IZR (2 ^ 52)). change (bpow radix2 53) with (IZR (2 ^ 53)). assert (ER : r = r * bpow radix2 (- e) * bpow radix2 e) by (rewrite Rmult_assoc, B; ring).
    rewrite ER. split; [apply Rmult_le_compat_r; lra|apply Rmult_lt_compat_r; lra]. }
  unfold nearest, round, F2R, scaled_mantissa, cexp. cbn [Fnum Fexp]. rewrite M. unfold FLX_exp. replace (e + 53 - 53)%Z with e by ring.
  rewrite (Znearest_imp _ _ m H2). reflexivity.
Qed.
Lemma near_exact (m e : Z) : (Z.abs m < 2 ^ 53)%Z -> nearest (IZR m * bpow radix2 e) = IZR m * bpow radix2 e.
Proof. intro H. apply round_generic; [apply valid_rnd_N|]. apply generic_format_FLX. exists (Float radix2 m e); [reflexivity|exact H]. Qed.
Lemma double_one : keeps_one double.
Proof.
  assert (PG : Prec_gt_0 53) by reflexivity. split; [apply (near_int 1); cbn; lia|]. intros op x y r H. apply abs_in in H.
  assert (N : Rabs (nearest r) <= 1).
  { apply Rabs_le. split.
    - replace (-(1)) with (nearest (IZR (-1))) by (rewrite near_int; [reflexivity|cbn; lia]). apply round_le; [apply (FLX_exp_valid 53)|apply valid_rnd_N|lra].
    - replace 1 with (nearest (IZR 1)) by (rewrite near_int; [reflexivity|cbn; lia]). apply round_le; [apply (FLX_exp_valid 53)|apply valid_rnd_N|lra]. }
  destruct op; cbn; try exact N. destruct (Req_EM_T y 0); [apply Rabs_le; lra|exact N].
Qed.
Definition constant (x : R) : tens := alit (Fin x).

(** just inside the corner: 1 - 2^-31 and 1 - 2^-40 *)
Definition ex_a : R := 1 - / 2147483648.
Definition ex_b : R := 1 - / 1099511627776.
Definition ex_w : R := ex_b * / 32768.
Lemma outside : nearest ex_a = ex_a /\ nearest ex_b = ex_b /\
  nearest (ex_b * nearest (sqrt (nearest (1 - nearest (ex_a * ex_a))))) = ex_w /\ nearest (1 - nearest (ex_a * ex_a)) = / 1073741824 /\
  1 < ex_a * ex_a + ex_w * ex_w /\ nearest (nearest (ex_a * ex_a) + nearest (ex_w * ex_w)) = 1.
Proof.
  assert (EA : ex_a = IZR 2147483647 * bpow radix2 (-31)) by (unfold ex_a; change (bpow radix2 (-31)) with (/ 2147483648); lra).
  assert (EB : ex_b = IZR 1099511627775 * bpow radix2 (-40)) by (unfold ex_b; change (bpow radix2 (-40)) with (/ 1099511627776); lra).
  assert (EW : ex_w = IZR 1099511627775 * bpow radix2 (-55)) by (unfold ex_w, ex_b; change (bpow radix2 (-55)) with (/ 36028797018963968); lra).
  assert (NQ : nearest (ex_a * ex_a) = 1 - / 1073741824).
  { rewrite (near_is (2 ^ 53 - 2 ^ 23) (-53)).
    - change (bpow radix2 (-53)) with (/ 9007199254740992). change (2 ^ 53 - 2 ^ 23)%Z with 9007199246352384%Z. lra.
    - change (bpow radix2 (- -53)) with 9007199254740992. change (2 ^ 52)%Z with 4503599627370496%Z. change (2 ^ 53)%Z with 9007199254740992%Z. unfold ex_a. lra.
    - change (bpow radix2 (- -53)) with 9007199254740992. change (2 ^ 53 - 2 ^ 23)%Z with 9007199246352384%Z. unfold ex_a. apply Rabs_def1; lra. }
  assert (ND : nearest (1 - (1 - / 1073741824)) = / 1073741824).
  { replace (1 - (1 - / 1073741824)) with (IZR 1 * bpow radix2 (-30)) by (change (bpow radix2 (-30)) with (/ 1073741824); lra). rewrite near_exact by (cbn; lia). change (bpow radix2 (-30)) with (/ 1073741824). lra. }
  assert (NS : nearest (sqrt (/ 1073741824)) = / 32768).
  { replace (sqrt (/ 1073741824)) with (IZR 1 * bpow radix2 (-15)). { rewrite near_exact by (cbn; lia). change (bpow radix2 (-15)) with (/ 32768). lra. }
    change (bpow radix2 (-15)) with (/ 32768). symmetry. apply sqrt_lem_1; lra. }
  assert (NW : nearest (ex_w * ex_w) = / 1073741824 - / 590295810358705651712).
  { rewrite (near_is (2 ^ 53 - 2 ^ 14) (-83)).
    - change (bpow radix2 (-83)) with (/ 9671406556917033397649408). change (2 ^ 53 - 2 ^ 14)%Z with 9007199254724608%Z. lra.
    - change (bpow radix2 (- -83)) with 9671406556917033397649408. change (2 ^ 52)%Z with 4503599627370496%Z. change (2 ^ 53)%Z with 9007199254740992%Z. unfold ex_w, ex_b. lra.
    - change (bpow radix2 (- -83)) with 9671406556917033397649408. change (2 ^ 53 - 2 ^ 14)%Z with 9007199254724608%Z. unfold ex_w, ex_b. apply Rabs_def1; lra. }
  split; [rewrite EA; apply near_exact; cbn; lia|]. split; [rewrite EB; apply near_exact; cbn; lia|].
  rewrite NQ, ND, NS. split; [fold ex_w; rewrite EW; apply near_exact; cbn; lia|]. split; [reflexivity|]. split; [unfold ex_a, ex_w, ex_b; lra|].
  rewrite NW. rewrite (near_is (2 ^ 53) (-53)).
  - change (bpow radix2 (-53)) with (/ 9007199254740992). change (2 ^ 53)%Z with 9007199254740992%Z. lra.
  - change (bpow radix2 (- -53)) with 9007199254740992. change (2 ^ 52)%Z with 4503599627370496%Z. change (2 ^ 53)%Z with 9007199254740992%Z. lra.
  - change (bpow radix2 (- -53)) with 9007199254740992. change (2 ^ 53)%Z with 9007199254740992%Z. apply Rabs_def1; lra.
Qed.
Lemma disk_outside : exists n1 n2 kw1 kw2 rest x y e i a b w, computed_disk double false "h" "k" [] = Ok (Free [] n1 "Uniform" kw1 :: Free [] n2 "Uniform" kw2 :: rest, (x, y)) /\
  aget (e n1) i = Fin a /\ aget (e n2) i = Fin b /\ -1 < a < 1 /\ -1 < b < 1 /\ nearest a = a /\ nearest b = b /\
  aget (x e) i = Fin a /\ aget (y e) i = Fin w /\ 1 < a * a + w * w /\ nearest (nearest (a * a) + nearest (w * w)) = 1.
Proof.
  destruct (computed_disk double false "h" "k" []) as [[ss [x y]]|] eqn:E; [|discriminate E]. assert (E' := E). unfold computed_disk in E'.
  destruct (disk_form _ _ _ _ _ _ _ E') as (kw1 & kw2 & f & -> & -> & -> & _ & _). destruct outside as (O1 & O2 & O3 & O4 & O5 & O6).
  exists "h"%string, (disk2 "k"), kw1, kw2. eexists. exists (fun e : env => e "h"%string). eexists. exists (fun n => if String.eqb n "h" then constant ex_a else constant ex_b), (fun _ => O), ex_a, ex_b, ex_w.
  split; [reflexivity|]. split; [reflexivity|]. split; [reflexivity|]. split; [unfold ex_a; lra|]. split; [unfold ex_b; lra|]. split; [exact O1|]. split; [exact O2|]. split; [reflexivity|].
  split; [|split; assumption]. simT. cbn [String.eqb Ascii.eqb Bool.eqb disk2 constant alit aget append]. simT. simV. rewrite (proj1 double_one). cbn [double].
  fold (1 - nearest (ex_a * ex_a)). rewrite O4 in *. unfold Rltb. destruct (Rlt_dec (/ 1073741824) 0); [lra|]. simV. cbn [double]. rewrite O3. reflexivity.
Qed.

(** q1 = 1 and q2 = 2^-60 *)
Lemma quad_unphysical : exists c n1 n2 kw1 kw2 rest out e i a b v1 v2, computed_quad double false "u" [] = Ok (c :: Free [] n1 "Uniform" kw1 :: Free [] n2 "Uniform" kw2 :: rest, out) /\
  (forall j, aget (e n1) j = Fin a) /\ (forall j, aget (e n2) j = Fin b) /\ 0 <= a <= 1 /\ 0 < b < 1 /\ nearest a = a /\ nearest b = b /\
  aget (out e) (set_ix 0 0 i) = Fin v1 /\ aget (out e) (set_ix 0 1 i) = Fin v2 /\ 1 < v1 + v2.
Proof.
  destruct (computed_quad double false "u" []) as [[ss out]|] eqn:E; [|discriminate E]. assert (E' := E). unfold computed_quad in E'.
  destruct (quad_form _ _ _ _ _ E') as (kw1 & kw2 & -> & -> & _). set (b := / 1152921504606846976).
  assert (EB : b = IZR 1 * bpow radix2 (-60)) by (unfold b; change (bpow radix2 (-60)) with (/ 1152921504606846976); lra).
  assert (E2 : 2 * b = IZR 1 * bpow radix2 (-59)) by (unfold b; change (bpow radix2 (-59)) with (/ 576460752303423488); lra).
  assert (N1 : nearest 1 = 1) by (apply (near_int 1); cbn; lia). assert (N2 : nearest 2 = 2) by (apply (near_int 2); cbn; lia).
  assert (NT : nearest (2 * b) = 2 * b) by (rewrite E2; apply near_exact; cbn; lia).
  assert (ND : nearest (1 + - (2 * b)) = 1).
  { rewrite (near_is (2 ^ 53) (-53)).
    - change (bpow radix2 (-53)) with (/ 9007199254740992). change (2 ^ 53)%Z with 9007199254740992%Z. lra.
    - change (bpow radix2 (- -53)) with 9007199254740992. change (2 ^ 52)%Z with 4503599627370496%Z. change (2 ^ 53)%Z with 9007199254740992%Z. unfold b. lra.
    - change (bpow radix2 (- -53)) with 9007199254740992. change (2 ^ 53)%Z with 9007199254740992%Z. unfold b. apply Rabs_def1; lra. }
  eexists. exists (quad1 "u"), (quad2 "u"), kw1, kw2. eexists. exists (@quad_out (rounded_tens double) "u"), (fun n => if String.eqb n (quad1 "u") then constant 1 else constant b), (fun _ => O), 1, b, (2 * b), 1.
  split; [reflexivity|]. split; [reflexivity|]. split; [reflexivity|]. split; [lra|]. split; [unfold b; lra|]. split; [exact N1|]. split; [rewrite EB; apply near_exact; cbn; lia|].
  unfold quad_out. set (X := @nmul tens btens (rounded_tens double) _ _). set (Y := @nmul tens btens (rounded_tens double) _ _).
  assert (SX : ash X = Ok []) by reflexivity.
  assert (Z : forall c i, set_ix 0 c i O = c) by (intros c i; reflexivity).
  rewrite (stack2_0 X Y [] _ SX (Z 0%nat _)), (stack2_1 X Y [] _ SX (Z 1%nat _)). unfold X, Y. simT. cbn [String.eqb Ascii.eqb Bool.eqb quad1 quad2 constant alit aget append]. simT. simV. cbn [double].
  unfold Rltb. destruct (Rlt_dec 1 0); [lra|]. simV. cbn [double]. rewrite sqrt_1, N1, N2, NT, ND, !Rmult_1_l, NT, N1.
  split; [reflexivity|]. split; [reflexivity|]. unfold b. lra.
Qed.

(** every function accepts calls, and every environment has values in range *)
Lemma float_calls : accurate half_ulp double /\ keeps_one double /\ half_ulp <= / 10 ^ 15 /\
  (exists ss out, computed_angle double false "phi" (Some (alit (Fin 10))) ex_kw = Ok (ss, out)) /\ requested ex_kw (PNum (alit (Fin 1))) /\
  (exists ss xy, computed_disk double false "h" "k" (ex_kw2 (1 / 2) (1 / 2)) = Ok (ss, xy)) /\
  (exists ss out e, computed_quad double true "u" (ex_kw2 (3 / 10) (2 / 10)) = Ok (ss, out) /\ requested (ex_kw2 (3 / 10) (2 / 10)) (PNum (ex_pair (3 / 10) (2 / 10))) /\
     ash (ex_pair (3 / 10) (2 / 10)) = Ok ([] ++ [2%nat]) /\ at_start true ss e) /\
  exists ss out, computed_impact double false "b" (alit (Fin (1 / 10))) ex_kw = Ok (ss, out).
Proof.
  split; [apply double_ok|]. split; [exact double_one|]. split; [rewrite half_ulp_is; lra|].
  split; [do 2 eexists; reflexivity|]. split; [left; reflexivity|]. split; [do 2 eexists; reflexivity|]. split; [|do 2 eexists; reflexivity].
  destruct (computed_quad double true "u" (ex_kw2 (3 / 10) (2 / 10))) as [[ss out]|] eqn:E; [|discriminate E]. assert (E' := E). unfold computed_quad in E'.
  destruct (quad_form _ _ _ _ _ E') as (kw1 & kw2 & Q & _ & u & u1 & u2 & _ & _ & _ & F1 & F2).
  match type of F1 with forwarded _ _ (PNum ?w1) _ _ => match type of F2 with forwarded _ _ (PNum ?w2) _ _ => exists ss, out, (fun n => if String.eqb n (quad1 "u") then w1 else w2) end end.
  split; [reflexivity|]. split; [left; reflexivity|]. split; [reflexivity|].
  rewrite Q. intros sc n c kw t H. destruct H as [H|[H|[H|[H|[]]]]]; try discriminate H; injection H as <- <- <- <-; intro G.
  - assert (G' := eq_trans (eq_sym G) (proj1 F1)). injection G' as ->. reflexivity.
  - assert (G' := eq_trans (eq_sym G) (proj1 F2)). injection G' as ->. reflexivity.
Qed.
