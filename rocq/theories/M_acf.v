(** * Model of next_pow_two and autocorr_function, src/exoplanet/estimators.py:213-242

    np.fft.fft and np.fft.ifft are the discrete Fourier sums they are documented
    to compute, in exact complex arithmetic. The series holds finite numbers. *)
From Coq Require Import Reals List Bool Arith ZArith.
From Verif Require Import Num CoreOps Inst.
Import ListNotations.
Open Scope R_scope.

(** estimators.py:215-218: [i = 1; while i < n: i = i << 1; return i]; the fuel
    bounds the number of tests of the loop condition *)
Fixpoint npt_loop (fuel : nat) (i n : Z) : res Z :=
  match fuel with
  | O => Err OutOfFuel
  | S fuel => if Z.ltb i n then npt_loop fuel (Z.shiftl i 1) n else Ok i
  end.
Definition next_pow_two (fuel : nat) (n : Z) : res Z := npt_loop fuel 1 n.

(** complex numbers *)
Definition cx : Type := R * R.
Definition cadd (a b : cx) : cx := (fst a + fst b, snd a + snd b).
Definition cmul (a b : cx) : cx := (fst a * fst b - snd a * snd b, fst a * snd b + snd a * fst b).
Definition conjugate (a : cx) : cx := (fst a, - snd a).                                 (* np.conjugate *)
Definition cis (t : R) : cx := (cos t, sin t).
Definition csum (l : list cx) : cx := fold_right cadd (0, 0) l.
(** np.fft.fft(a, n=m): the input is cropped or zero-padded to m entries *)
Definition fft (a : list cx) (m : nat) : list cx :=
  map (fun k => csum (map (fun j => cmul (nth j a (0, 0)) (cis (- (2 * PI * INR j * INR k / INR m)))) (seq 0 m))) (seq 0 m).
(** np.fft.ifft(a) *)
Definition ifft (a : list cx) : list cx :=
  let m := length a in
  map (fun j => cmul (csum (map (fun k => cmul (nth k a (0, 0)) (cis (2 * PI * INR j * INR k / INR m))) (seq 0 m))) (1 / INR m, 0)) (seq 0 m).

(** a numpy array of finite numbers: shape and data in order; a scalar has shape [] *)
Record nda := { nd_shape : list nat; nd_data : list R }.
Definition rsum (l : list R) : R := fold_right Rplus 0 l.
(** estimators.py:233-242 *)
Definition autocorr_function (x : nda) : res (list fl) :=
  let x := match nd_shape x with [] => {| nd_shape := [1%nat]; nd_data := nd_data x |} | _ => x end in  (* np.atleast_1d *)
  match nd_shape x with
  | [len] =>
      n <- next_pow_two (S len) (Z.of_nat len) ;;
      let mean := rsum (nd_data x) / INR len in
      let f := fft (map (fun v => (v - mean, 0)) (nd_data x)) (2 * Z.to_nat n) in
      let acf := map fst (firstn len (ifft (map (fun z => cmul z (conjugate z)) f))) in
      match acf with
      | [] => Err IndexErr                                                              (* acf[0] *)
      | a0 :: _ => Ok (map (fun a => fdiv (Fin a) (Fin a0)) acf)
      end
  | _ => Err ValueError
  end.
