(** * The variables of the submodels *)
From Coq Require Import Reals List Bool Arith String Lia Lra Ascii FinFun.
From Verif Require Import Num CoreOps Inst M_units M_kepler M_tensor M_kwargs M_durecc M_durvars Spec_array Spec_durecc Spec_durvars Ex_durecc L_fl L_shapeS L_kwargs2 L_durecc.
Import ListNotations.
Local Notation length := List.length.
Open Scope R_scope.

Lemma Forall2_length' {A B} (P : A -> B -> Prop) l l' : Forall2 P l l' -> length l = length l'.
Proof. intro H. induction H; cbn; congruence. Qed.
Lemma substring_all n s : (String.length s <= n)%nat -> substring 0 n s = s.
Proof.
  revert n. induction s as [|c s IH]; intros [|n] H; cbn in *; try reflexivity; try lia. f_equal. apply IH. lia.
Qed.
Lemma from_append a b : str_from (String.length a) (a ++ b) = b.
Proof.
  unfold str_from. induction a as [|c a IH]; cbn [String.length append substring].
  - rewrite Nat.sub_0_r. apply substring_all. lia.
  - replace (Datatypes.S (String.length (a ++ b)) - Datatypes.S (String.length a))%nat with (String.length (a ++ b) - String.length a)%nat by lia. exact IH.
Qed.
Lemma append_length a b : String.length (a ++ b) = (String.length a + String.length b)%nat.
Proof. induction a as [|c a IH]; cbn; [reflexivity|]. rewrite IH. reflexivity. Qed.
Lemma append_assoc' a b c : ((a ++ b) ++ c = a ++ (b ++ c))%string.
Proof. induction a as [|x a IH]; cbn; [reflexivity|]. rewrite IH. reflexivity. Qed.
Lemma append_inj a b c : (a ++ b = a ++ c -> b = c)%string.
Proof. induction a as [|x a IH]; cbn; intro H; [exact H|]. apply IH. injection H. auto. Qed.
Lemma name_back (p : bool) m v : str_from (String.length m + 1) (joined p m v) = if p then v else (":" ++ v)%string.
Proof.
  unfold joined. destruct p.
  - rewrite <- append_assoc'. replace (String.length m + 1)%nat with (String.length (m ++ "_")) by (rewrite append_length; reflexivity). apply from_append.
  - replace ("::" ++ v)%string with (":" ++ (":" ++ v))%string by reflexivity. rewrite <- append_assoc'. replace (String.length m + 1)%nat with (String.length (m ++ ":")) by (rewrite append_length; reflexivity). apply from_append.
Qed.
Lemma joined_inj p m a b : joined p m a = joined p m b -> a = b.
Proof. unfold joined. intro H. apply append_inj in H. destruct p; apply append_inj in H; exact H. Qed.
Lemma declared_keys p m vars : declares p m vars -> map fst (snd m) = map (joined p (fst m)) (map fst vars).
Proof. intros ->. rewrite !map_map. reflexivity. Qed.
Lemma declared_value m vars n v : declares true m vars -> NoDup (map fst vars) -> In (n, v) vars -> lookup (fst m ++ "_" ++ n)%string (snd m) = Some v.
Proof.
  intros H ND I. apply lookup_in.
  - rewrite (declared_keys _ _ _ H). apply Injective_map_NoDup; [|exact ND]. intros a b. apply joined_inj.
  - rewrite H. apply in_map_iff. exists (n, v). split; [reflexivity|exact I].
Qed.
(** ** PyMC 3 *)
Lemma values_at models varss n k : Forall2 (declares true) models varss -> List.Forall (fun vars => NoDup (map fst vars)) varss ->
  List.Forall (fun vars => nth_error (map fst vars) k = Some n) varss ->
  exists vs, values_of n models = Some vs /\ Forall2 (fun vars v => nth_error vars k = Some (n, v)) varss vs.
Proof.
  intros H. induction H as [|m vars models varss H HF IH]; intros ND HN; [exists []; split; [reflexivity|constructor]|].
  inversion ND; subst. inversion HN; subst. destruct (IH ltac:(assumption) ltac:(assumption)) as (vs & E & F).
  assert (Q : exists v, nth_error vars k = Some (n, v)).
  { match goal with Q : nth_error (map fst vars) k = _ |- _ => rewrite nth_error_map in Q; destruct (nth_error vars k) as [[n' v]|]; [|discriminate Q]; cbn in Q; injection Q as -> end. eexists. reflexivity. }
  destruct Q as [v Q]. exists (v :: vs). split; [|constructor; assumption]. cbn [values_of].
  rewrite (declared_value m vars n v H) by (try assumption; apply nth_error_In in Q; exact Q). rewrite E. reflexivity.
Qed.
Lemma weighted_at logw vs ws xs i : Forall2 (fun l w => fexp l = Fin w) logw ws -> Forall2 (fun (v : tens) x => aget v i = Fin x) vs xs -> length logw = length vs ->
  forall (acc : tens) a, aget acc i = Fin a -> aget (fold_left (fun (acc : tens) p => acc + alit (fexp (fst p)) * snd p)%num (combine logw vs) acc) i = Fin (a + average ws xs).
Proof.
  intros HW. revert vs xs. induction HW as [|l w logw ws Hl HW IH]; intros vs xs HX L acc a Ha.
  - destruct vs; [|discriminate L]. inversion HX; subst. cbn. rewrite Ha. f_equal. ring.
  - destruct vs as [|v vs]; [discriminate L|]. inversion HX as [|? x ? xs' Hx HX']; subst. cbn [combine fold_left fst snd average]. injection L as L.
    rewrite (IH vs xs' HX' L _ (a + w * x)); [f_equal; ring|]. cbn [nadd nmul NumT amap2 aget alit]. rewrite Ha, Hl, Hx. reflexivity.
Qed.
Lemma weighted_shape logw vs s : length logw = length vs -> List.Forall (fun v : tens => ash v = Ok s) vs -> vs <> [] -> ash (weighted logw vs) = Ok s.
Proof.
  intros L H N. unfold weighted. destruct vs as [|v vs]; [congruence|]. destruct logw as [|l logw]; [discriminate L|]. injection L as L. inversion H as [|? ? Hv Hs]; subst. cbn [combine fold_left fst snd].
  set (acc := (_ + _)%num). assert (A : ash acc = Ok s). { unfold acc. cbn [nadd nmul NumT amap2 ash alit]. rewrite Hv. cbn [bcr bc]. destruct s; reflexivity. }
  clearbody acc. clear N Hv H v. revert logw L acc A. induction vs as [|v vs IH]; intros [|l' logw] L acc A; try discriminate L; [exact A|]. cbn [combine fold_left fst snd]. inversion Hs; subst. apply IH; [assumption|injection L; auto|].
  cbn [nadd nmul NumT amap2 ash alit]. rewrite A. match goal with Q : ash v = _ |- _ => rewrite Q end. cbn [bcr bc]. destruct s; [reflexivity|]. cbn [bcr]. rewrite bc_refl. reflexivity.
Qed.
Lemma marginal_of_ok n0 logw models varss names : Forall2 (declares true) models varss -> NoDup names -> List.Forall (fun vars => map fst vars = names) varss ->
  forall ks j, (forall k, nth_error ks k = nth_error names (j + k)) -> 
  exists out, marginal_of n0 logw models (map (joined true n0) ks) = Some out /\ map fst out = ks /\
    forall k n T, nth_error out k = Some (n, T) -> exists vs, Forall2 (fun vars v => nth_error vars (j + k) = Some (n, v)) varss vs /\ T = weighted logw vs.
Proof.
  intros H ND HN ks. assert (NDs : List.Forall (fun vars => NoDup (map fst vars)) varss) by (eapply Forall_impl; [|exact HN]; cbn; intros a ->; exact ND).
  induction ks as [|q ks IH]; intros j Hk; cbn [map marginal_of].
  - exists []. split; [reflexivity|]. split; [reflexivity|]. intros [|k] n T E; discriminate E.
  - rewrite (name_back true). destruct (values_at models varss q j H NDs) as (vs & -> & F).
    { eapply Forall_impl; [|exact HN]. cbn. intros a ->. rewrite <- (Nat.add_0_r j), <- (Hk 0%nat). reflexivity. }
    destruct (IH (Datatypes.S j)) as (out & -> & En & Ev). { intro k. rewrite Nat.add_succ_comm. apply (Hk (Datatypes.S k)). }
    eexists. split; [reflexivity|]. split; [cbn [map fst]; rewrite En; reflexivity|]. intros [|k] n T E.
    + cbn in E. injection E as <- <-. exists vs. rewrite Nat.add_0_r. split; [exact F|reflexivity].
    + cbn [nth_error] in E. destruct (Ev k n T E) as (vs' & F' & ->). exists vs'. rewrite <- Nat.add_succ_comm. split; [exact F'|reflexivity].
Qed.
Lemma variables_law : forall logw models varss names, models <> [] -> length logw = length models ->
  Forall2 (declares true) models varss -> NoDup names -> List.Forall (fun vars => map fst vars = names) varss ->
  exists out, marginal_variables logw models = Some out /\ map fst out = names /\
    forall n T, In (n, T) out ->
      (forall s, (forall vars v, In vars varss -> In (n, v) vars -> ash v = Ok s) -> ash T = Ok s) /\
      (forall i ws xs, Forall2 (fun l w => fexp l = Fin w) logw ws -> Forall2 (fun vars x => exists v, In (n, v) vars /\ aget v i = Fin x) varss xs ->
         aget T i = Fin (average ws xs)).
Proof.
  intros logw models varss names NE L H ND HN. destruct models as [|m models]; [congruence|].
  assert (K : map fst (snd m) = map (joined true (fst m)) names). { inversion H; subst. inversion HN; subst. erewrite declared_keys by eassumption. reflexivity. }
  unfold marginal_variables. rewrite K.
  destruct (marginal_of_ok (fst m) logw (m :: models) varss names H ND HN names 0 (fun k => eq_refl)) as (out & E & En & Ev).
  exists out. split; [exact E|]. split; [exact En|]. intros n T I. apply In_nth_error in I. destruct I as [k I]. destruct (Ev k n T I) as (vs & F & ->).
  assert (Lv : length vs = length (m :: models)). { rewrite <- (Forall2_length' _ _ _ F). symmetry. apply (Forall2_length' _ _ _ H). }
  split.
  - intros s Hs. apply weighted_shape; [lia| |intros ->; cbn in Lv; lia]. apply Forall_forall. intros v Iv. apply In_nth_error in Iv. destruct Iv as [a Ia].
    assert (Q : exists vars, In vars varss /\ In (n, v) vars).
    { clear - F Ia. revert a Ia. induction F as [|vars w varss vs Hv F IH]; intros [|a] Ia; try discriminate Ia; cbn in Ia.
      - injection Ia as <-. exists vars. split; [left; reflexivity|]. apply (nth_error_In _ _ Hv).
      - destruct (IH a Ia) as (vars' & A & B). exists vars'. split; [right; exact A|exact B]. }
    destruct Q as (vars & A & B). apply (Hs vars v A B).
  - intros i ws xs HW HX. unfold weighted. rewrite <- (Rplus_0_l (average ws xs)). apply weighted_at; [exact HW| |lia|reflexivity].
    clear - F HX HN ND. revert xs HX. induction F as [|vars v varss vs Hv F IH]; intros xs HX; inversion HX as [|? x ? xs' (v' & I' & Hx) HX']; subst; constructor.
    + inversion HN; subst. assert (v' = v); [|subst; exact Hx]. clear - Hv I' ND. apply nth_error_In in Hv. apply (lookup_in _ _ _ ND) in Hv. apply (lookup_in _ _ _ ND) in I'. congruence.
    + apply IH; [|exact HX']. inversion HN; assumption.
Qed.
(** later versions *)
Lemma variables_missing : forall logw m models vars varss, vars <> [] -> Forall2 (declares false) (m :: models) (vars :: varss) -> marginal_variables logw (m :: models) = None.
Proof.
  intros logw m models vars varss NE H. inversion H as [|? ? ? ? H1 H2]; subst. unfold marginal_variables. rewrite (declared_keys _ _ _ H1). destruct vars as [|[n v] vars]; [congruence|]. cbn [map fst marginal_of].
  rewrite (name_back false). cbn [values_of]. replace (lookup _ (snd m)) with (@None tens); [reflexivity|]. symmetry. apply lookup_omitted. rewrite (declared_keys _ _ _ H1). intro I. apply in_map_iff in I. destruct I as (q & E & _).
  unfold joined in E. apply append_inj in E. cbn in E. discriminate E.
Qed.
Lemma weights_ignore : forall logprob logprob' r p out out', marginalize logprob r [p] = Ok out -> marginalize logprob' r [p] = Ok out' -> de_logw out = de_logw out' /\ de_branches out = de_branches out'.
Proof. intros logprob logprob' r p out out' E E'. cbn in E, E'. injection E as <-. injection E' as <-. split; reflexivity. Qed.
Lemma average_between ws xs lo hi : List.Forall (fun w => 0 <= w) ws -> length ws = length xs -> fold_right Rplus 0 ws = 1 -> List.Forall (fun x => lo <= x <= hi) xs -> lo <= average ws xs <= hi.
Proof.
  intros Hw L S H. assert (K : lo * fold_right Rplus 0 ws <= average ws xs <= hi * fold_right Rplus 0 ws); [|rewrite S in K; lra]. clear S.
  revert xs L H. induction Hw as [|w ws Hw0 Hw IH]; intros [|x xs] L H; try discriminate L; cbn; [lra|]. inversion H as [|? ? Hx Hs]; subst. injection L as L. specialize (IH xs L Hs).
  assert (A := Rmult_le_compat_l w _ _ Hw0 (proj1 Hx)). assert (B := Rmult_le_compat_l w _ _ Hw0 (proj2 Hx)). lra.
Qed.

Lemma weights_real r p total : forall brs ws, 0 < total -> Forall2 (weight r p total) brs ws ->
  exists xs, Forall2 (fun l w => fexp l = Fin w) ws xs /\ List.Forall (fun x => 0 <= x) xs /\ fsum (map fexp ws) = Fin (fold_right Rplus 0 xs).
Proof.
  intros brs ws HT H. induction H as [|b w brs ws Hw H IH].
  { exists []. split; [constructor|]. split; [constructor|reflexivity]. }
  destruct IH as (xs & A & B & C).
  assert (Q : exists x, fexp w = Fin x /\ 0 <= x).
  { destruct Hw as [(e & v & _ & _ & (d & _ & _ & Hv) & E)|(_ & _ & E)].
    - exists (v / total). split; [exact E|]. subst v. unfold Rdiv. rewrite Rmult_1_l. apply Rmult_le_pos; [|left; apply Rinv_0_lt_compat; exact HT]. rewrite <- Rabs_inv. apply Rabs_pos.
    - exists 0. split; [exact E|lra]. }
  destruct Q as (x & E & Hx). exists (x :: xs). split; [constructor; assumption|]. split; [constructor; assumption|]. cbn [map fsum fold_right]. rewrite E, C. reflexivity.
Qed.
Lemma weighted_pos es vs r p : Forall2 (rate r p) es vs -> es <> [] -> 0 < weighted_sum (fun _ => 1) es vs.
Proof.
  intros H NE. assert (K : List.Forall (fun v => 0 < v) vs). { clear NE. induction H as [|e v es vs (d & _ & Hd & ->) H IH]; constructor; [|exact IH]. apply Rdiv_lt_0_compat; [lra|]. apply Rabs_pos_lt. exact Hd. }
  destruct H as [|e v es vs Hv H]; [congruence|]. inversion K; subst. cbn. clear Hv NE K. assert (A : 0 <= weighted_sum (fun _ => 1) es vs); [|lra].
  induction H as [|e' v' es vs Hv H IH]; cbn; [lra|]. match goal with Q : List.Forall _ (_ :: _) |- _ => inversion Q; subst end. specialize (IH ltac:(assumption)). lra.
Qed.
Lemma marginal_logw_length logprob r p out : marginalize logprob r [p] = Ok out -> length (de_logw out) = 2%nat.
Proof. intro E. cbn in E. injection E as <-. reflexivity. Qed.
(** a reported value lies between the values of the branches; out of range it is zero *)
Lemma reported_law : forall logprob r p out models varss names, transits r p -> -1 < sin (p_omega p) ->
  marginalize logprob r [p] = Ok out -> length models = length (de_branches out) ->
  Forall2 (declares true) models varss -> NoDup names -> List.Forall (fun vars => map fst vars = names) varss ->
  exists reported, marginal_variables (de_logw out) models = Some reported /\ map fst reported = names /\
    forall n T i, In (n, T) reported ->
      (in_range r p = true -> forall lo hi, (forall vars v, In vars varss -> In (n, v) vars -> exists x, aget v i = Fin x /\ lo <= x <= hi) ->
         exists y, aget T i = Fin y /\ lo <= y <= hi) /\
      (in_range r p = false -> (forall vars v, In vars varss -> In (n, v) vars -> exists x, aget v i = Fin x) -> aget T i = Fin 0).
Proof.
  intros logprob r p out models varss names HT HS HM HL HD ND HN.
  assert (LW : length (de_logw out) = length models). { cbn in HM. injection HM as <-. rewrite HL. reflexivity. }
  assert (NE : models <> []). { intros ->. apply marginal_logw_length in HM. rewrite LW in HM. discriminate HM. }
  destruct (variables_law (de_logw out) models varss names NE LW HD ND HN) as (rep & E & En & Ev). exists rep. split; [exact E|]. split; [exact En|].
  intros n T i I. destruct (Ev n T I) as [_ Hv].
  assert (X : forall P : R -> Prop, (forall vars v, In vars varss -> In (n, v) vars -> exists x, aget v i = Fin x /\ P x) ->
    exists xs, Forall2 (fun vars x => exists v, In (n, v) vars /\ aget v i = Fin x) varss xs /\ List.Forall P xs).
  { intros P HP. assert (In n names). { rewrite <- En. apply (in_map fst) in I. exact I. } clear - HP H HN. induction varss as [|vars varss IH]; [exists []; split; constructor|].
    inversion HN as [|? ? Q1 Q2]; subst. destruct (IH Q2) as (xs & A & B). { intros vs v H1 H2. apply (HP vs v (or_intror H1) H2). }
    apply in_map_iff in H. destruct H as ([n' v] & Q & Iv). cbn in Q. subst n'. destruct (HP vars v (or_introl eq_refl) Iv) as (x & Ex & Px).
    exists (x :: xs). split; constructor; try assumption. exists v. split; assumption. }
  assert (LV : length varss = length models) by (symmetry; apply (Forall2_length' _ _ _ HD)).
  split.
  - intros IR lo hi HP. destruct (X (fun x => lo <= x <= hi) HP) as (xs & FX & BX).
    destruct (marginal_law (fun _ => Fin 0) (fun _ => 0) r p HT HS (fun _ => eq_refl)) as [_ M]. destruct (M IR) as (es & vs & out' & _ & FR & NEs & HM' & _ & FW & SW).
    assert (EW : de_logw out = de_logw out'). { cbn in HM, HM'. injection HM as <-. injection HM' as <-. reflexivity. }
    rewrite <- EW in SW, FW. destruct (weights_real r p _ _ _ (weighted_pos _ _ _ _ FR NEs) FW) as (ws & A & B & C).
    exists (average ws xs). split; [exact (Hv i ws xs A FX)|]. apply average_between; try assumption.
    + apply Forall2_length' in FX. apply Forall2_length' in A. exact (eq_trans (eq_sym A) (eq_trans LW (eq_trans (eq_sym LV) FX))).
    + rewrite SW in C. injection C. auto.
  - intros IR HP. destruct (X (fun _ => True)) as (xs & FX & _). { intros vars v H1 H2. destruct (HP vars v H1 H2) as [x Q]. exists x. split; [exact Q|exact Logic.I]. }
    assert (HW : de_logw out = [Inf false; Inf false]). { cbn in HM. injection HM as <-. cbn [de_logw]. rewrite IR. reflexivity. }
    rewrite HW in Hv. rewrite (Hv i [0; 0] xs); [|repeat constructor|exact FX]. f_equal. clear. destruct xs as [|x [|y xs]]; cbn; try ring. 
Qed.
Lemma variables_later : forall logprob r p out models varss, marginalize logprob r [p] = Ok out -> length models = length (de_branches out) ->
  Forall2 (declares false) models varss -> List.Forall (fun vars => In "ecc"%string (map fst vars)) varss -> marginal_variables (de_logw out) models = None.
Proof.
  intros logprob r p out models varss HM HL HD HE. destruct HD as [|m vars models varss H HD].
  - cbn in HM. injection HM as <-. discriminate HL.
  - apply (variables_missing _ m models vars varss); [|constructor; assumption]. inversion HE; subst. intros ->. cbn in *. assumption.
Qed.
Lemma ex_declares b : Forall2 (declares b) (ex_submodels b) [ex_vars 0 2; ex_vars (15 / 17) 3] /\ NoDup ["ecc"; "depth"]%string /\
  List.Forall (fun vars => map fst vars = ["ecc"; "depth"]%string) [ex_vars 0 2; ex_vars (15 / 17) 3] /\
  (exists out, marginalize (fun _ => Fin 0) 1 [ex_planet] = Ok out /\ length (ex_submodels b) = length (de_branches out)).
Proof.
  split; [repeat constructor|]. split. { repeat constructor; cbn; intuition discriminate. }
  split; [repeat constructor|]. eexists. split; reflexivity.
Qed.
