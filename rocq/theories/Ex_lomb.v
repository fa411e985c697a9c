(** * A concrete Lomb-Scargle periodogram *)
From Coq Require Import Reals List Bool Arith ZArith String Lra.
From Verif Require Import Num CoreOps Inst M_dist M_peaks M_bls M_lomb Spec_peaks Spec_bls Spec_lomb Spec_ecc L_lomb Ex_peaks.
Import ListNotations.
Local Notation length := List.length.
Open Scope R_scope.

(** an astropy that wants the method and a finite upper frequency *)
Definition ex_autopower : ls_autopower := fun x y yerr kw =>
  match dget "method" kw, dget "maximum_frequency" kw with
  | Some (PStr _), Some (PNum _) => Ok (ex_f, map Fin ex_p)
  | _, _ => Err ValueError
  end.
Lemma ex_ls : sorts isort /\ usable (Some 0.1) /\ usable None /\ usable (Some 0.25) /\ [1; 2; 3] <> [] /\ absent ["method"; "normalization"]%string [("nyquist_factor"%string, PInt 2)] /\
  (forall kw', sent (ls_keywords (Some 0.1) None) [("nyquist_factor"%string, PInt 2)] kw' -> exists fs ps, ex_autopower [1; 2; 3] [1; 0; 1] None kw' = Ok (fs, map Fin ps) /\
     length fs = length ps /\ strictly_monotone fs /\ List.Forall (fun f => 0 <= f) fs) /\
  exists kw', sent (ls_keywords (Some 0.1) None) [("nyquist_factor"%string, PInt 2)] kw'.
Proof.
  split; [exact isort_sorts|]. split; [cbn; lra|]. split; [exact I|]. split; [cbn; lra|]. split; [discriminate|]. split; [intros k [<-|[<-|[]]]; reflexivity|]. split.
  - intros kw' [F _]. exists ex_f, ex_p. unfold ex_autopower. rewrite (F "method"%string (PStr "fast")) by (cbn; tauto). rewrite (F "maximum_frequency"%string (pfloat (1 / 0.1))) by (cbn; tauto). cbn [pfloat].
    split; [reflexivity|]. split; [reflexivity|]. split; [exact ex_f_mono|exact ex_f_pos].
  - exists (two ++ lim (Some 0.1) None [("nyquist_factor"%string, PInt 2)]). apply lim_keywords; [cbn; lra|exact I].
Qed.
