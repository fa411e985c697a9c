(** * The rounded constructor of a system of planets *)
From Coq Require Import Reals List Bool Arith Lia Lra.
From Verif Require Import Num CoreOps Inst M_units M_kepler M_fin M_tensor Spec_orbit Spec_params Spec_array Spec_float Spec_float2 Spec_float3 Spec_float5 Spec_float6 L_shape L_array L_params3 L_float30 L_float31 L_float32.
Import ListNotations.
Open Scope R_scope.

Lemma constructor_float : forall u rd, accurate u rd -> forall k, consts_ok k -> forall n x xs os, (0 < n)%nat -> machine_args u n x xs ->
  (forall j, (j < n)%nat -> machine_orbit u rd k (xs j) (os j) /\ (forall b, ka_b (xs j) = Some b -> Rabs (o_cos_incl (os j)) <= 1)) ->
  exists o, @kep_init tens btens (rounded_tens rd) k x = Ok o /\ array_orbit n o os.
Proof.
  intros u rd Acc k kok n x xs os Hn [Px Hx Dx Ex] HM.
  assert (F : forall i, (i O < n)%nat -> rmap (orbit_at i) (@kep_init tens btens (rounded_tens rd) k x) = Ok (fin_orbit (os (i O)))).
  { intros i Hi. destruct (HM (i O) Hi) as [[I Sz Ic Ie Is Ico Io] Hb]. assert (E := kep_init_at rd k i x Dx). rewrite (args_at_wf n x i Px), (Hx (i O) Hi) in E. transitivity (@kep_init fl bool (rounded_fl rd) k (fin_args (xs (i O)))); [symmetry; exact E|].
    assert (D' : ka_duration (xs (i O)) = None). { assert (Q := f_equal (fun y => ka_duration y) (Hx (i O) Hi)). unfold args_at, fin_args in Q. cbn [map_args ka_duration] in Q. rewrite Dx in Q. destruct (ka_duration (xs (i O))); [discriminate|reflexivity]. }
    apply (init_fin u rd Acc k kok); try assumption. intros e He. split; [apply (Ie e He)|apply (Ex (i O) e Hi He)]. }
  destruct (@kep_init tens btens (rounded_tens rd) k x) as [o|ex] eqn:Ek; [|specialize (F (fun _ => O) Hn); discriminate F].
  exists o. split; [reflexivity|]. destruct (L_float31.kep_init_sn rd n k x o Dx Px Ek) as (So & En & _). destruct So. assert (SS : forall a : tens, Sn n a -> one_or_each n a) by (intros a X; exact X). split; [|split].
  - unfold attribute_list. apply Forall_app. split; [repeat (apply Forall_cons; [apply SS; assumption|]); apply Forall_nil|]. apply Forall_app. split.
    + destruct (o_ecc o) as [d|]; [|constructor]. destruct os_ecc as (? & ? & ?). repeat (apply Forall_cons; [apply SS; assumption|]); apply Forall_nil.
    + destruct (o_Omega o) as [d|]; [|constructor]. destruct os_Om as (? & ?). repeat (apply Forall_cons; [apply SS; assumption|]); apply Forall_nil.
  - exact (proj2 En).
  - intros i Hi. specialize (F i Hi). cbn [rmap] in F. apply L_params3.Ok_inj in F. exact F.
Qed.
