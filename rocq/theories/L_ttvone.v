(** * TTVOrbit: a single time for several transits *)
From Coq Require Import Reals List Bool Arith ZArith Lra Lia String.
From Verif Require Import Num CoreOps Inst M_units M_kepler M_kwargs M_fin M_tensor M_ttv Spec_orbit Spec_params Spec_array Spec_ttv
  L_params3 L_real L_fl L_fl2 L_kwargs L_ttv1 L_ttv2 L_ttv3 L_ttv4 L_ttv5 L_ttv6 Ex_orbit Ex_system.
Import ListNotations.
Open Scope R_scope.
Local Notation length := List.length.

Lemma ttv_single : forall k x o, ttv_init k x = Ok o -> forall i inds v,
  nth_error (tt_inds o) i = Some inds -> nth_error (tt_times o) i = Some [v] -> inds <> [] -> NoDup inds -> (forall z, In z inds -> (0 <= z)%Z) ->
  exists t0 p m all, tix (o_t0 (tt_orbit o)) i = Ok t0 /\ tix (o_period (tt_orbit o)) i = Ok p /\
    nth_error (tt_all o) i = Some all /\ In m inds /\ (forall z, In z inds -> (z <= m)%Z) /\ length all = S (Z.to_nat m) /\
    (forall z, In z inds -> nth_error all (Z.to_nat z) = Some v) /\
    (forall z, (0 <= z <= m)%Z -> ~ In z inds -> nth_error all (Z.to_nat z) = Some (fadd t0 (fmul p (Fin (IZR z))))).
Proof.
  intros k x o H i inds v Hi Ht Hne Hd Hp. destruct (ttv_init_finish k x o H) as (F & _).
  destruct (finish_ok _ _ _ _ _ _ F) as (_ & _ & _ & _ & _ & _ & _ & A).
  destruct (A i inds Hi) as (t0 & p & tt & all & bin & E1 & E2 & E3 & E4 & E5 & _). rewrite Ht in E3. injection E3 as <-.
  set (times := map (fun _ : Z => v) inds). assert (HL : length inds = length times) by (unfold times; rewrite map_length; reflexivity).
  destruct (all_fill t0 p inds times Hne HL Hd Hp) as (m & r & Im & Hm & Er & Lr & I1 & I2).
  assert (EQ : ttv_all t0 p inds [v] = ttv_all t0 p inds times).
  { unfold ttv_all. destruct (zmax inds); [|reflexivity]. cbn [rbind]. rewrite (set_sub_len _ inds times HL). cbn [set_subtensor]. f_equal. unfold times. clear. induction inds as [|z l IH]; [reflexivity|]. cbn. rewrite IH. reflexivity. }
  rewrite EQ in E4. rewrite E4 in Er. apply Ok_inj in Er. subst r.
  exists t0, p, m, all. split; [exact E1|]. split; [exact E2|]. split; [exact E5|]. split; [exact Im|]. split; [exact Hm|]. split; [exact Lr|].
  split; [|exact I2]. intros z Hz. apply In_nth_error in Hz. destruct Hz as [q Hq]. apply (I1 q z v Hq). unfold times. rewrite nth_error_map, Hq. reflexivity.
Qed.
Definition ex_x1 : targs := targs_of None (Some [[Fin 5]]) (Some [[1; 2]%Z])
  (("period"%string, KNum (plain (vector 1 (fun _ => 2)))) :: ex_kw 1 ex_bs).
Lemma single_time : exists k x o, consts_ok k /\ ttv_init k x = Ok o /\ tt_inds o = [[1; 2]%Z] /\ tt_times o = [[Fin 5]] /\
  exists t0, tt_all o = [[t0; Fin 5; Fin 5]].
Proof.
  exists ek, ex_x1. destruct (ttv_init ek ex_x1) as [o|] eqn:E; [|discriminate E]. exists o.
  destruct (times_init _ _ _ _ E eq_refl eq_refl) as (T1 & _ & LI & _ & G). destruct (G 0%nat _ eq_refl) as (i0 & s & c & r & G1 & G2 & _).
  assert (EI : tt_inds o = [[1; 2]%Z]).
  { cbn in G1. injection G1 as <-. destruct (tt_inds o) as [|y [|]]; cbn in *; congruence. }
  split; [apply ek_ok|]. split; [reflexivity|]. split; [exact EI|]. split; [exact T1|].
  destruct (ttv_single ek ex_x1 o E 0 [1; 2]%Z (Fin 5)) as (t0 & p & m & all & _ & _ & A3 & A4 & A5 & A6 & A7 & _).
  { rewrite EI. reflexivity. } { rewrite T1. reflexivity. } { discriminate. } { repeat constructor; cbn; intuition discriminate. } { intros z [<-|[<-|[]]]; lia. }
  assert (M : m = 2%Z). { destruct A4 as [<-|[<-|[]]]; [|reflexivity]. specialize (A5 2%Z ltac:(cbn; auto)). lia. } subst m.
  assert (B1 := A7 1%Z ltac:(cbn; auto)). assert (B2 := A7 2%Z ltac:(cbn; auto)). destruct all as [|a [|b [|c' [|]]]]; cbn in A6; try discriminate A6. cbn in B1, B2. injection B1 as ->. injection B2 as ->.
  exists a. destruct (ttv_init_finish _ _ _ E) as (F & L1 & L2 & _). destruct (finish_ok _ _ _ _ _ _ F) as (_ & _ & _ & _ & _ & L & _). rewrite EI in L. destruct (tt_all o) as [|y [|]]; cbn in *; congruence.
Qed.
