(** * Proofs: the attributes of an orbit with rounding errors, their signs *)
From Coq Require Import Reals Lra Lia Psatz Bool List.
From Coquelicot Require Import Rcomplements.
From Verif Require Import Num CoreOps Inst M_units M_kepler Spec_orbit Spec_params Spec_float L_real L_orbit L_float L_float2 L_float3 Spec_float8.
Open Scope R_scope.

Section V.
Variable u : R.
Variable rd : rounder.
Hypothesis Acc : accurate u rd.
Let v := u / (1 - u).
Let U := proj1 Acc.
Notation N := (rounded rd).
Ltac simF := cbn [nlit nadd nsub nmul ndiv nneg nsqrt nsin ncos nasin nacos natan2 nexp nlog
  nabs nfloor nmod npowr nkepler_sin nkepler_cos nzl npadr nsqz nlt nle nband nsw rounded npw] in *.
Ltac aps := lazymatch goal with
  | |- ap _ _ (rd _ _ _ _) _ => eapply (rd_ap u rd Acc); aps
  | |- ap _ _ (_ * _) _ => eapply (ap_mul u); aps
  | |- ap _ _ (_ / _) _ => eapply (ap_div u); aps
  | |- _ => apply (ap_refl u)
  end.

Lemma signs k : consts_ok k -> forall x o, @kep_init R bool N k x = Ok o -> sizes o -> directed o.
Proof.
  intros kok x o H (Ha & Hp & Hr & Hm & Hmp). unfold kep_init in H. inv_bind H. destruct v0 as [mp rho]. inv_bind H. destruct v0 as [[[a0 r0] dur] dadt]. inv_bind H.
  destruct v0 as [[[[[a P] RHO] RS] MS] MP]. inv_bind H. rename v0 into ed. inv_bind H. destruct v0 as [[[b ci] inc] durattr]. inv_bind H. destruct v0 as [t0 tper].
  apply Ok_eq in H. subst o. cbn [o_a o_period o_r_star o_m_star o_m_planet] in Ha, Hp, Hr, Hm, Hmp.
  destruct (ci_float u rd Acc k kok _ _ _ _ _ _ _ _ _ _ _ _ E1 Ha Hp Hr Hm Hmp) as [K3 RH]. fold v in K3, RH. clear E3 E2 E1 E0 E.
  assert (HG := ok_G _ kok). assert (Hg := consts_gcc_pos k kok). assert (Hpi := PI_pos). assert (LA := Rabs_pos (ln a)). assert (LR := Rabs_pos (ln RS)).
  assert (Mt : 0 < MS + MP) by lra. assert (Ht : ap v 1 (rd OAdd MS MP (MS + MP)) (MS + MP)). { eapply (ap_le u rd Acc); [aps|lra]. }
  assert (Hu : 0 < rd OAdd MS MP (MS + MP)) by (apply (proj2 (ap_pos u _ _ _ Ht)); exact Mt).
  assert (Hn : ap v 4 (rd ODiv (rd OMul (rd OLit 2 0 2) (rd OLit PI 0 PI) (rd OLit 2 0 2 * rd OLit PI 0 PI)) P (rd OMul (rd OLit 2 0 2) (rd OLit PI 0 PI) (rd OLit 2 0 2 * rd OLit PI 0 PI) / P)) (2 * PI / P)).
  { eapply (ap_le u rd Acc); [aps|lra]. }
  assert (Pn := proj2 (ap_pos u _ _ _ Hn) (Rdiv_lt_0_compat (2 * PI) P ltac:(lra) Hp)).
  assert (PR : 0 < RHO).
  { assert (P3 : 0 < 3 * MS * gcc_per_sun k) by nra. apply (proj2 (ap_pos u _ _ _ RH)) in P3. assert (R3 : 0 < 4 * PI * (RS * RS * RS)) by (apply Rmult_lt_0_compat; [lra|apply Rmult_lt_0_compat; [apply Rmult_lt_0_compat; exact Hr|exact Hr]]).
    destruct (Rlt_dec 0 RHO) as [h|h]; [exact h|]. apply Rnot_lt_le in h. exfalso. assert (0 <= (- RHO) * (4 * PI * (RS * RS * RS))) by (apply Rmult_le_pos; lra). lra. }
  unfold directed. cbn [o_a o_period o_rho_star o_r_star o_m_star o_m_planet o_m_total o_n o_a_star o_a_planet o_K0 o_ecc o_dcosidb o_t0 o_tper o_tref]; simF.
  generalize dependent (rd OAdd MS MP (MS + MP)). intros mt K3 Ht Hu.
  match type of Hn with ap _ _ ?X _ => generalize dependent X end. intros n E4' Hn Pn.
  split; [exact Hu|]. split; [exact Pn|]. split; [exact PR|]. split; [|split].
  - match goal with |- ?X < 0 => assert (A : ap v 2 X (- a * MS / mt)) by (eapply (ap_le u rd Acc); [aps|lra]) end.
    assert (B := ap_neg u _ _ _ A). replace (- (- a * MS / mt)) with (a * MS / mt) in B by (field; lra).
    assert (C := proj2 (ap_pos u _ _ _ B) ltac:(apply Rdiv_lt_0_compat; [apply Rmult_lt_0_compat; lra|lra])). lra.
  - intro Hq. match goal with |- 0 < ?X => assert (A : ap v 2 X (a * MP / mt)) by (eapply (ap_le u rd Acc); [aps|lra]) end.
    apply (proj2 (ap_pos u _ _ _ A)). apply Rdiv_lt_0_compat; [apply Rmult_lt_0_compat; lra|lra].
  - intros ->. split.
    + match goal with |- 0 < ?X => assert (A : ap v 2 X (n * a / mt)) by (eapply (ap_le u rd Acc); [aps|lra]) end.
      apply (proj2 (ap_pos u _ _ _ A)). apply Rdiv_lt_0_compat; [apply Rmult_lt_0_compat; lra|lra].
    + match goal with |- 0 < ?X => assert (A : ap v 3 X (1 * RS / a)) by (eapply (ap_le u rd Acc); [aps|lra]) end.
      apply (proj2 (ap_pos u _ _ _ A)). apply Rdiv_lt_0_compat; lra.
Qed.
End V.
Lemma attribute_signs : forall (u : R) (rd : rounder), accurate u rd -> forall k, consts_ok k -> forall x o, @kep_init R bool (rounded rd) k x = Ok o -> sizes o -> directed o.
Proof. exact signs. Qed.
