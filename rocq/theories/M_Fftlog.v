(** Model of the compiled FFTLog correlation functions: the Fortran routines fhti, fht, fhtq, krgood (_gcl/extern/fftlog/fftlog.f), their wrapper
    FortranFFTLog (_gcl/cpp/FortranFFTLog.cpp) and ComputeXiLM_fftlog, ComputeXiLM (method FFTLOG), pk_to_xi, xi_to_pk (_gcl/cpp/CorrelationFunction.cpp).
    Doubles are reals; the real FFTs drfftf, drfftb are exact sums (half-complex arrays are lists of complex coefficients 0..N/2); `cdgamma(z, 1)` (log Gamma)
    is an arbitrary function C -> C. The splines are those of M_Spline. *)
From Coq Require Import Reals List ZArith Arith.
From Coquelicot Require Import Coquelicot.
From Verif Require Import M_Mcfit M_Spline.
Import ListNotations.
Local Open Scope R_scope.

(** Fortran's anint: nearest integer, halves away from zero *)
Definition anint (x : R) : Z := if Rle_dec 0 x then Int_part (x + 1/2) else (- Int_part (- x + 1/2))%Z.
(** fftlog.f:787-834 *)
Definition krgood (lg : C -> C) (mu q D kr : R) : R :=
  if Req_EM_T D 0 then kr else
  let y := PI / (2 * D) in
  let arg := ln (2/kr) / D + (Im (lg ((mu + 1 + q)/2, y)) + Im (lg ((mu + 1 - q)/2, y))) / PI in
  let iarg := IZR (anint arg) in
  if Req_EM_T arg iarg then kr else kr * exp ((arg - iarg) * D).
(** What fhti leaves in wsave: q, dlnr, kr and the coefficients for m = 0..N/2 *)
Record plan := { p_N : nat; p_q : R; p_D : R; p_kr : R; p_u : list C }.
(** fftlog.f:361-377: q = 0. No coefficient is stored for m = 0 (a(1) is left alone, fftlog.f:709-725): 1 here. *)
Definition u_unbiased (lg : C -> C) (mu D kr : R) (N m : nat) : C :=
  match m with O => RtoC 1 | _ =>
    let y := INR m * (PI / (INR N * D)) in let arg := 2 * (ln (2/kr) * y + Im (lg ((mu + 1)/2, y))) in (cos arg, sin arg) end.
(** fftlog.f:380-463: q <> 0; the branches for (mu+1+q)/2 or (mu+1-q)/2 a non-positive integer are not modelled (the arguments below are positive) *)
Definition u_biased (lg : C -> C) (mu q D kr : R) (N m : nat) : C :=
  let xp := (mu + 1 + q)/2 in let xm := (mu + 1 - q)/2 in
  let y := INR m * (PI / (INR N * D)) in
  let amp := exp (ln 2 * q + Re (lg (xp, y)) - Re (lg (xm, y))) in
  match m with
  | O => (amp * cos (Im (lg (xp, y)) + Im (lg (xm, y))), 0)
  | _ => let arg := 2 * ln (2/kr) * y + Im (lg (xp, y)) + Im (lg (xm, y)) in (amp * cos arg, amp * sin arg)
  end.
(** fftlog.f:233-470 with kropt = 1 *)
Definition fhti (lg : C -> C) (N : nat) (mu q D kr : R) : plan :=
  let kr' := krgood lg mu q D kr in
  {| p_N := N; p_q := q; p_D := D; p_kr := kr';
     p_u := map (if Req_EM_T q 0 then u_unbiased lg mu D kr' N else u_biased lg mu q D kr' N) (seq 0 (N/2 + 1)) |}.
(** drfftb: sum of the Hermitian extension with exp(+2 pi i m n/N) *)
Definition drfftb (a : list C) (N : nat) : list R :=
  map (fun n => Re (csum N (fun m => herm N (fun j => nth j a (RtoC 0)) m * Cconj (tw N m n))%C)) (seq 0 N).
(** fftlog.f:644-784 with dir = 1: multiply the coefficients (only the real part at N/2 for even N), transform back, reverse and divide by N *)
Definition fhtq (p : plan) (a : list R) : list R :=
  let A := rfft a in
  let B := map (fun m => let u := nth m (p_u p) (RtoC 0) in
                         (nth m A (RtoC 0) * (if andb (Nat.even (p_N p)) (m =? p_N p / 2)%nat then RtoC (Re u) else u))%C) (seq 0 (p_N p/2 + 1)) in
  map (fun v => v / INR (p_N p)) (rev (drfftb B (p_N p))).
(** fftlog.f:565-641 with dir = 1; index j = i + 1, jc = (n+1)/2 *)
Definition fht (p : plan) (a : list R) : list R :=
  if Req_EM_T (p_q p) 0 then fhtq p a else
  let jc := (INR (p_N p) + 1)/2 in
  let a1 := map (fun i => nth i a 0 * exp (- p_q p * (INR i + 1 - jc) * p_D p)) (seq 0 (p_N p)) in
  let a2 := fhtq p a1 in
  map (fun i => nth i a2 0 * exp (- p_q p * ((INR i + 1 - jc) * p_D p + ln (p_kr p)))) (seq 0 (p_N p)).

Definition lg10 (x : R) : R := ln x / ln 10.
Definition last_of (l : list R) : R := nth (length l - 1) l 0.
(** CorrelationFunction.cpp:22-54. [l] the multipole, [m] the power of k; the arrays r and xi. `ok` is always true for kropt = 1. *)
Definition ComputeXiLM_fftlog (lg : C -> C) (l m : nat) (k pk : list R) (q smoothing : R) : list R * list R :=
  let N := length k in
  let nc := (INR N + 1)/2 in
  let lo := lg10 (nth 0 k 0) in let hi := lg10 (last_of k) in
  let dlogr := (hi - lo)/(INR N - 1) in
  let logrc := 1/2 * (lo + hi) in
  let p := fhti lg N (INR l + 1/2) q (dlogr * ln 10) 1 in
  let a := map (fun i => Rpower (nth i k 0) (INR m - 1/2) * nth i pk 0 * exp (- (nth i k 0 * smoothing)^2)) (seq 0 N) in
  let b := fht p a in
  let logkc := lg10 (p_kr p) - logrc in
  let r := map (fun i => Rpower 10 (logkc + (INR i + 1 - nc) * dlogr)) (seq 0 N) in
  (r, map (fun i => Rpower (2 * PI * nth i r 0) (-(3/2)) * nth i b 0) (seq 0 N)).
(** spline(xs): one value per point; None: an assertion failed *)
Fixpoint eval_many (s : spline) (xs : list R) : option (list R) :=
  match xs with [] => Some [] | x :: t => match evaluate s x, eval_many s t with Some v, Some vs => Some (v :: vs) | _, _ => None end end.
Fixpoint lmin (d : R) (l : list R) : R := match l with [] => d | x :: t => Rmin x (lmin d t) end.
Fixpoint lmax (d : R) (l : list R) : R := match l with [] => d | x :: t => Rmax x (lmax d t) end.
(** CorrelationFunction.cpp:56-84, method FFTLOG. [w0]: the uninitialised work arrays of the splines. *)
Definition ComputeXiLM (lg : C -> C) (w0 : work) (l m : nat) (k_ pk_ r : list R) (smoothing : R) : option (list R) :=
  let N := length k_ in
  let nc := (INR N + 1)/2 in
  let lo := lg10 (lmin (nth 0 k_ 0) k_) in let hi := lg10 (lmax (nth 0 k_ 0) k_) in
  let logrc := 1/2 * (lo + hi) in
  let dlogr := (hi - lo)/(INR N - 1) in
  let k := map (fun i => Rpower 10 (logrc + (INR i + 1 - nc) * dlogr)) (seq 0 N) in
  match cubic_spline w0 k_ pk_ with None => None | Some s1 =>
    match eval_many s1 k with None => None | Some pk =>
      let '(r_, xi_) := ComputeXiLM_fftlog lg l m k pk 0 smoothing in
      match cubic_spline w0 r_ xi_ with None => None | Some s2 => eval_many s2 r end end end.
(** CorrelationFunction.cpp:130-141 *)
Definition pk_to_xi (lg : C -> C) (w0 : work) (ell : nat) (k pk r : list R) (smoothing : R) : option (list R) :=
  option_map (map (fun v => (-1)^(ell/2) * v)) (ComputeXiLM lg w0 ell 2 k pk r smoothing).
Definition xi_to_pk (lg : C -> C) (w0 : work) (ell : nat) (r xi k : list R) (smoothing : R) : option (list R) :=
  option_map (map (fun v => (-1)^(ell/2) * (8 * PI * PI * PI) * v)) (ComputeXiLM lg w0 ell 2 r xi k smoothing).
