(** * Keywords are bound to the parameters of their names *)
From Coq Require Import Reals Lra List Bool String.
From Verif Require Import Num CoreOps Inst M_units M_kepler M_kwargs Spec_orbit Spec_params Spec_kwargs L_real L_orbit L_params L_params3 Ex_orbit.
Import ListNotations.
Open Scope R_scope.

Section S.
Context {T B : Type} {N : Num T B}.
Lemma lookup_in {A} n (v : A) l : NoDup (map fst l) -> In (n, v) l -> lookup n l = Some v.
Proof.
  induction l as [|[m w] l IH]; intros ND H; [destruct H|]. cbn in *. inversion ND; subst. destruct H as [E|H].
  - injection E as -> ->. rewrite String.eqb_refl. reflexivity.
  - destruct (String.eqb n m) eqn:E; [|apply IH; assumption]. apply String.eqb_eq in E. subst. exfalso. apply H2. apply (in_map fst) in H. exact H.
Qed.
Lemma lookup_omitted {A} n (l : list (string * A)) : ~ In n (map fst l) -> lookup n l = None.
Proof.
  induction l as [|[m w] l IH]; intro H; [reflexivity|]. cbn in *. destruct (String.eqb n m) eqn:E; [apply String.eqb_eq in E; subst; exfalso; apply H; left; reflexivity|]. apply IH. intro Q. apply H. right. exact Q.
Qed.
Variable l : list (string * kval T).
Hypothesis ND : NoDup (map fst l).
Lemma qty_given n v : given_qty l n v -> kw_qty None n l = Ok v.
Proof.
  unfold given_qty, kw_qty. destruct v as [q|]; [intro H; rewrite (lookup_in _ _ _ ND H); reflexivity|].
  intros [H|H]; [rewrite lookup_omitted by exact H; reflexivity|rewrite (lookup_in _ _ _ ND H); reflexivity].
Qed.
Lemma num_given n v : given_num l n v -> kw_num n l = Ok v.
Proof.
  unfold given_num, kw_num. destruct v as [a|].
  - intros (q & H & <-). rewrite (qty_given n (Some q) H). reflexivity.
  - intro H. rewrite (qty_given n None H). reflexivity.
Qed.
Lemma mass_given n v : given_mass l n v -> kw_qty (Some (plain (nlit 0))) n l = Ok v.
Proof.
  unfold given_mass, kw_qty. destruct v as [q|]; [|intro H; rewrite (lookup_in _ _ _ ND H); reflexivity].
  intros [H|[H ->]]; [rewrite (lookup_in _ _ _ ND H); reflexivity|rewrite lookup_omitted by exact H; reflexivity].
Qed.
Lemma unit_given n v : given_unit l n v -> kw_unit n l = Ok v.
Proof.
  unfold given_unit, kw_unit. destruct v as [u|]; intro H; [rewrite (lookup_in _ _ _ ND H)|rewrite lookup_omitted by exact H]; reflexivity.
Qed.
End S.
Lemma keywords_bound : forall (T B : Type) (N : Num T B) k l (x : kargs T), call_gives l x -> kep_call k l = kep_init k x.
Proof.
  intros T B N k l x H. assert (ND := gi_once _ _ H). unfold kep_call, bind_kwargs.
  rewrite (qty_given l ND _ _ (gi_period _ _ H)), (qty_given l ND _ _ (gi_a _ _ H)), (num_given l ND _ _ (gi_t0 _ _ H)), (num_given l ND _ _ (gi_tper _ _ H)),
    (num_given l ND _ _ (gi_incl _ _ H)), (num_given l ND _ _ (gi_b _ _ H)), (qty_given l ND _ _ (gi_duration _ _ H)), (num_given l ND _ _ (gi_ecc _ _ H)), (num_given l ND _ _ (gi_omega _ _ H)),
    (num_given l ND _ _ (gi_sin_omega _ _ H)), (num_given l ND _ _ (gi_cos_omega _ _ H)), (num_given l ND _ _ (gi_Omega _ _ H)), (mass_given l ND _ _ (gi_m_planet _ _ H)),
    (qty_given l ND _ _ (gi_m_star _ _ H)), (qty_given l ND _ _ (gi_r_star _ _ H)), (qty_given l ND _ _ (gi_rho_star _ _ H)), (num_given l ND _ _ (gi_ror _ _ H)),
    (unit_given l ND _ _ (gi_m_planet_units _ _ H)), (unit_given l ND _ _ (gi_rho_star_units _ _ H)).
  destruct x; reflexivity.
Qed.
Definition ex_call : list (string * kval R) := [("b"%string, KNum (plain (1 / 2))); ("m_planet_units"%string, KUnit (u_M_sun ek)); ("t0"%string, KNone); ("period"%string, KNum (plain 10))].
Definition ex_call_args : kargs R :=
  {| ka_period := Some (plain 10); ka_a := None; ka_t0 := None; ka_tper := None;
     ka_incl := None; ka_b := Some (1 / 2); ka_duration := None; ka_ecc := None; ka_omega := None;
     ka_sin_omega := None; ka_cos_omega := None; ka_Omega := None; ka_m_planet := Some (plain 0);
     ka_m_star := None; ka_r_star := None; ka_rho_star := None; ka_ror := None;
     ka_m_planet_units := Some (u_M_sun ek); ka_rho_star_units := None |}.
Lemma call_example : call_gives ex_call ex_call_args.
Proof.
  constructor; cbn; unfold omitted; cbn; try (left; intuition discriminate); try (intuition discriminate); try (exists (plain (1 / 2)); split; [left; reflexivity|reflexivity]); try tauto.
  all: try (right; split; [intuition discriminate|reflexivity]); try (repeat constructor; cbn; intuition discriminate).
Qed.
