(** * Examples for C111 *)
From Coq Require Import Reals List Lra Lia ZArith Arith Sorted.
From Verif Require Import Num CoreOps Inst CoreFlux M_units M_kepler M_kwargs M_fin M_tensor M_ttv M_limbdark Spec_orbit Spec_params Spec_array Spec_light Spec_ttv Spec_cont Spec_ttvmove
  L_real L_params3 L_ttv3 L_ttv6 L_ttv8 Ex_orbit Ex_system L_light8 L_light9 L_ttv9 L_transit6 Ex_accuracy L_ttvmove L_ttvmove2 L_ttvmove3.
Import ListNotations.
Open Scope R_scope.

(** the first two transits of the first planet are 10.5 days apart and the last two 10 days, the period *)
Lemma move_example : exists o os X V, consts_ok ek /\ ttv_init ek ex_x = Ok o /\ ttv_system ek 2 o os ex_tts /\ ttv_motion ek 2 o X V /\
  nearest (ex_tts 0) 1 2 /\ (forall v, In v (ex_tts 0) -> 1 <= v) /\
  consecutive (ex_tts 0) 2 (25 / 2) /\ ~ whole (25 / 2 - 2) (o_period (os 0%nat)) /\ ~ continuous_at (X Relative 0%nat) (29 / 4) /\
  consecutive (ex_tts 0) 22 32 /\ whole (32 - 22) (o_period (os 0%nat)) /\
  disk_flux (3 / 10) (2 / 10) <> 0 /\ elements 2 (vector 2 (fun _ => 1 / 10)) (fun _ => 1 / 10) /\
  (forall j, (j < 2)%nat -> 0 <= 1 / 10 /\ o_r_star (os j) + 1 / 10 <= o_a (os j) * (1 - ecc_of (os j))) /\
  (forall j u v, (j < 2)%nat -> consecutive (ex_tts j) u v -> meets (3 / 10) (2 / 10) ek (os j) (1 / 10) (v - u)).
Proof.
  destruct ex_ttv as (o & os0 & kok & Ho & Sy0 & V1 & V2). destruct ex_tsystem as (os & Sy & F).
  assert (sys : ttv_system ek 2 o os ex_tts).
  { destruct Sy0 as [M _ A I P]. constructor; try assumption. exists (ex_targs 2 ex_bs), (fun j => ex_b_args (ex_bs j)). split; [|exact Sy].
    clear - Ho. unfold ttv_init in Ho. cbn [ta_ttvs ta_kw ta_inds ex_x targs_of] in Ho.
    change (kep_call ek (ex_tkw 2 ex_bs)) with (kep_init ek (ex_targs 2 ex_bs)) in Ho. destruct (kep_init ek (ex_targs 2 ex_bs)) as [ob|]; [|discriminate Ho].
    cbn [rbind] in Ho. destruct (imap _ ex_ttvs) as [times|] in Ho; [|discriminate Ho]. cbn [rbind] in Ho.
    apply L_ttv3.finish_ok in Ho. f_equal. symmetry. apply Ho. }
  destruct (motion_known ek 2 o os ex_tts kok sys) as (X & V & HM). exists o, os, X, V.
  destruct (F 0%nat ltac:(lia)) as (A3 & A4 & A1 & A2 & A5 & A6 & A7).
  split; [exact kok|]. split; [exact Ho|]. split; [exact sys|]. split; [exact HM|].
  split. { split; [left; reflexivity|]. intros w [<-|[<-|[<-|[<-|[]]]]]; unfold Rabs; repeat destruct Rcase_abs; split; intros; lra. }
  split. { intros v [<-|[<-|[<-|[<-|[]]]]]; lra. }
  assert (C1 : consecutive (ex_tts 0) 2 (25 / 2)) by (exists 0%nat; split; reflexivity).
  assert (NW : ~ whole (25 / 2 - 2) (o_period (os 0%nat))).
  { intros (z & E). rewrite A3 in E. assert (E' : IZR (20 * z) = IZR 21) by (rewrite mult_IZR; lra). apply eq_IZR in E'. lia. }
  split; [exact C1|]. split; [exact NW|].
  split. { intro H. apply NW. apply (proj1 (steady_iff ek 2 o os ex_tts kok sys X V HM 0%nat 2 (25 / 2) ltac:(lia) C1)). replace ((2 + 25 / 2) / 2) with (29 / 4) by lra. exact H. }
  split. { exists 2%nat. split; reflexivity. }
  split. { exists 1%Z. rewrite A3. lra. }
  split; [apply disk_example|]. split; [apply elements_vector|].
  split. { intros j Hj. destruct (F j Hj) as (B3 & B4 & B1 & B2 & B5 & B6 & B7). unfold ecc_of. rewrite B1, B5. lra. }
  intros j u v Hj _. apply (meets_when ek 2 o os ex_tts (3 / 10) (2 / 10) j (1 / 10) (v - u) kok sys disk_example Hj ltac:(lra)). left. apply (F j Hj).
Qed.
(** so the motion of a TTVOrbit is in general not continuous *)
Lemma move_not_continuous : ~ (forall k n o os tts X V j t, consts_ok k -> ttv_system k n o os tts -> ttv_motion k n o X V -> (j < n)%nat -> continuous_at (X Relative j) t).
Proof.
  intro H. destruct move_example as (o & os & X & V & kok & _ & sys & HM & _ & _ & _ & _ & N & _). apply N. apply (H ek 2%nat o os ex_tts X V 0%nat (29 / 4) kok sys HM). lia.
Qed.
