(** * C72: duration_to_eccentricity *)
From Coq Require Import Reals List Bool Arith String.
From Verif Require Import Num Inst M_units M_tensor M_durecc M_durvars Spec_durecc Spec_durvars Ex_durecc L_durecc L_durvars.
Import ListNotations.
Local Notation length := List.length.
Open Scope R_scope.

Theorem C72_raises : forall resolver logprob a period rho_star r_star m_star m_planet ru mu,
  duration_to_eccentricity resolver logprob a period rho_star r_star m_star m_planet ru mu = Err TypeErr.
Proof. exact raises_law. Qed.
Print Assumptions C72_raises.

Theorem C72_roots : forall r p, transits r p ->
  ((exists e, root r p e) -> exists em ep, d_ecc (-1) (d_s p) (d_u r p) = Fin em /\ d_ecc 1 (d_s p) (d_u r p) = Fin ep /\ em <= ep /\
      forall e, root r p e <-> e = em \/ e = ep) /\
  (~ (exists e, root r p e) -> d_ecc (-1) (d_s p) (d_u r p) = NaN /\ d_ecc 1 (d_s p) (d_u r p) = NaN).
Proof. exact roots_law. Qed.
Print Assumptions C72_roots.

Theorem C72_valid : forall r p e, transits r p ->
  (is_eccentricity r p e <-> (d_ecc (-1) (d_s p) (d_u r p) = Fin e \/ d_ecc 1 (d_s p) (d_u r p) = Fin e) /\ d_valid (Fin e) = true).
Proof. exact valid_law. Qed.
Print Assumptions C72_valid.

Theorem C72_jacobian : forall r p e, transits r p -> 0 <= e < 1 -> e + sin (p_omega p) <> 0 ->
  exists v, rate r p e v /\ 0 < v /\ d_logjac (d_s p) (d_const r p) (Fin e) = Fin (ln v).
Proof. exact rate_law. Qed.
Print Assumptions C72_jacobian.

Theorem C72_range : forall r p, transits r p -> -1 < sin (p_omega p) ->
  (in_range r p = true <-> exists e, 0 < e /\ is_eccentricity r p e /\ e + sin (p_omega p) <> 0).
Proof. exact range_law. Qed.
Print Assumptions C72_range.

Theorem C72_marginal : forall logprob lp r p, transits r p -> -1 < sin (p_omega p) -> (forall e, logprob [Fin e] = Fin (lp e)) ->
  (in_range r p = false -> exists out, marginalize logprob r [p] = Ok out /\ de_potential out = [Inf false]) /\
  (in_range r p = true -> exists es vs out, all_eccentricities r p es /\ Forall2 (rate r p) es vs /\ es <> [] /\
     marginalize logprob r [p] = Ok out /\ de_potential out = [Fin (ln (weighted_sum (fun e => exp (lp e)) es vs))] /\
     Forall2 (weight r p (weighted_sum (fun _ => 1) es vs)) (de_branches out) (de_logw out) /\ fsum (map fexp (de_logw out)) = Fin 1).
Proof. exact marginal_law. Qed.
Print Assumptions C72_marginal.

Theorem C72_many_planets_refuted : forall logprob r ps, length ps <> 1%nat -> marginalize logprob r ps = Err ShapeErr.
Proof. exact many_planets. Qed.
Print Assumptions C72_many_planets_refuted.

Theorem C72_branches : forall n l, In l (map (map snd) (sign_product n)) <-> length l = n /\ List.Forall (fun x => x = -1 \/ x = 1) l.
Proof. exact signs_law. Qed.
Print Assumptions C72_branches.

Example C72_example : transits 1 ex_planet /\ -1 < sin (p_omega ex_planet) /\ in_range 1 ex_planet = true /\
  is_eccentricity 1 ex_planet 0 /\ is_eccentricity 1 ex_planet (15 / 17).
Proof. exact ex_durecc_ok. Qed.

Theorem C72_variables : forall logw models varss names, models <> [] -> length logw = length models ->
  Forall2 (declares true) models varss -> NoDup names -> List.Forall (fun vars => map fst vars = names) varss ->
  exists out, marginal_variables logw models = Some out /\ map fst out = names /\
    forall n T, In (n, T) out ->
      (forall s, (forall vars v, In vars varss -> In (n, v) vars -> ash v = Ok s) -> ash T = Ok s) /\
      (forall i ws xs, Forall2 (fun l w => fexp l = Fin w) logw ws -> Forall2 (fun vars x => exists v, In (n, v) vars /\ aget v i = Fin x) varss xs ->
         aget T i = Fin (average ws xs)).
Proof. exact variables_law. Qed.
Print Assumptions C72_variables.

Theorem C72_reported : forall logprob r p out models varss names, transits r p -> -1 < sin (p_omega p) ->
  marginalize logprob r [p] = Ok out -> length models = length (de_branches out) ->
  Forall2 (declares true) models varss -> NoDup names -> List.Forall (fun vars => map fst vars = names) varss ->
  exists reported, marginal_variables (de_logw out) models = Some reported /\ map fst reported = names /\
    forall n T i, In (n, T) reported ->
      (in_range r p = true -> forall lo hi, (forall vars v, In vars varss -> In (n, v) vars -> exists x, aget v i = Fin x /\ lo <= x <= hi) ->
         exists y, aget T i = Fin y /\ lo <= y <= hi) /\
      (in_range r p = false -> (forall vars v, In vars varss -> In (n, v) vars -> exists x, aget v i = Fin x) -> aget T i = Fin 0).
Proof. exact reported_law. Qed.
Print Assumptions C72_reported.

Theorem C72_weights : forall logprob logprob' r p out out', marginalize logprob r [p] = Ok out -> marginalize logprob' r [p] = Ok out' -> de_logw out = de_logw out' /\ de_branches out = de_branches out'.
Proof. exact weights_ignore. Qed.
Print Assumptions C72_weights.

Theorem C72_reported_later_refuted : forall logprob r p out models varss, marginalize logprob r [p] = Ok out -> length models = length (de_branches out) ->
  Forall2 (declares false) models varss -> List.Forall (fun vars => In "ecc"%string (map fst vars)) varss -> marginal_variables (de_logw out) models = None.
Proof. exact variables_later. Qed.
Print Assumptions C72_reported_later_refuted.

Example C72_reported_example : forall b, Forall2 (declares b) (ex_submodels b) [ex_vars 0 2; ex_vars (15 / 17) 3] /\ NoDup ["ecc"; "depth"]%string /\
  List.Forall (fun vars => map fst vars = ["ecc"; "depth"]%string) [ex_vars 0 2; ex_vars (15 / 17) 3] /\
  (exists out, marginalize (fun _ => Fin 0) 1 [ex_planet] = Ok out /\ length (ex_submodels b) = length (de_branches out)).
Proof. exact ex_declares. Qed.
