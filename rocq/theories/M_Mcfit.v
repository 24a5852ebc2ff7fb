(** Model of the FFTLog integral transforms (pyRSD/extern/mcfit): mcfit.__init__, _setup, __call__, the Mellin kernels of the Bessel, spherical Bessel
    and Fourier transforms, and the transform classes Hankel, SphericalBessel, FourierSine, FourierCosine, P2xi, xi2P. Doubles are reals, complex
    numbers pairs of reals (Coquelicot's C), numpy's rfft and hfft are exact sums; scipy's `loggamma` is an arbitrary function C -> C. *)
From Coq Require Import Reals List ZArith Arith.
From Coquelicot Require Import Coquelicot.
Import ListNotations.
Local Open Scope R_scope.

(** numpy.exp of a complex number *)
Definition cexp (z : C) : C := (exp (Re z) * cos (Im z), exp (Re z) * sin (Im z)).
(** numpy.angle: arctan2(imag, real) *)
Definition atan2 (y x : R) : R :=
  if Rlt_dec 0 x then atan (y/x)
  else if Rlt_dec x 0 then (if Rle_dec 0 y then atan (y/x) + PI else atan (y/x) - PI)
  else if Rlt_dec 0 y then PI/2 else if Rlt_dec y 0 then - (PI/2) else 0.
Definition angle (z : C) : R := atan2 (Im z) (Re z).

(** kernels.py:10-28. [lg]: loggamma *)
Definition mellin_besselj (lg : C -> C) (nu : R) (z : C) : C :=
  cexp (RtoC (ln 2) * (z - RtoC 1) + lg (RtoC (1/2) * (RtoC nu + z)) - lg (RtoC (1/2) * (RtoC 2 + RtoC nu - z)))%C.
Definition mellin_sphj (lg : C -> C) (nu : R) (z : C) : C :=
  cexp (RtoC (ln 2) * (z - RtoC (3/2)) + lg (RtoC (1/2) * (RtoC nu + z)) - lg (RtoC (1/2) * (RtoC 3 + RtoC nu - z)))%C.
Definition mellin_sine (lg : C -> C) (z : C) : C :=
  cexp (RtoC (ln 2) * (z - RtoC (1/2)) + lg (RtoC (1/2) * (RtoC 1 + z)) - lg (RtoC (1/2) * (RtoC 2 - z)))%C.
Definition mellin_cosine (lg : C -> C) (z : C) : C :=
  cexp (RtoC (ln 2) * (z - RtoC (1/2)) + lg (RtoC (1/2) * z) - lg (RtoC (1/2) * (RtoC 1 - z)))%C.

Fixpoint csum (n : nat) (f : nat -> C) : C := match n with O => RtoC 0 | S k => (csum k f + f k)%C end.
(** exp(-2 pi i m n/N) *)
Definition tw (N m n : nat) : C := cexp (0, - (2 * PI * INR m * INR n / INR N)).
(** numpy.fft.rfft of a real array: the first N//2+1 Fourier coefficients *)
Definition rfft (l : list R) : list C :=
  map (fun m => csum (length l) (fun n => RtoC (nth n l 0) * tw (length l) m n)%C) (seq 0 (length l / 2 + 1)).
(** numpy.fft.hfft(a, N): the (real) Fourier sum of the Hermitian extension of a; imaginary parts at 0 and N/2 are ignored *)
Definition herm (N : nat) (a : nat -> C) (m : nat) : C := if (m <=? N/2)%nat then a m else Cconj (a (N - m)%nat).
Definition hfft (a : list C) (N : nat) : list R :=
  map (fun n => Re (csum N (fun m => herm N (fun j => nth j a (RtoC 0)) m * tw N m n)%C)) (seq 0 N).

(** The object after construction: x, q, N, the output argument y, the coefficients _u, prefac and postfac (arrays). *)
Record mc := { c_x : list R; c_q : R; c_N : nat; c_y : list R; c_u : list C; c_pre : list R; c_post : list R }.
(** mcfit.py:115: numpy.log(x[-1]/x[0])/(Nx-1) *)
Definition spacing (x : list R) : R := ln (nth (length x - 1) x 0 / nth 0 x 0) / (INR (length x) - 1).
(** mcfit.py:116: numpy.allclose(x[1:]/x[:-1], exp(Delta), rtol=1e-3), atol 1e-8 *)
Definition log_even (x : list R) : bool :=
  forallb (fun i => if Rle_dec (Rabs (nth (S i) x 0 / nth i x 0 - exp (spacing x))) (1/100000000 + 1/1000 * Rabs (exp (spacing x))) then true else false)
          (seq 0 (length x - 1)).
(** mcfit.py:119-123: by default the smallest power of two that at least doubles the length; ceil(log2 Nx) is log2_up. *)
Definition fft_len (N : option nat) (Nx : nat) : nat := match N with None => 2 ^ (Nat.log2_up Nx + 1) | Some n => n end.
(** mcfit.py:127-129 *)
Definition lnxy (UK : C -> C) (q : R) (N : nat) (lowring : bool) (D : R) : R :=
  if andb lowring (Nat.even N) then D / PI * angle (UK (q, PI / D)) else 0.
(** mcfit.py:86-141; None: ValueError. The prefac/postfac arguments are the defaults 1 (the subclasses set the attributes). *)
Definition mc_init (x : list R) (UK : C -> C) (q : R) (No : option nat) (lowring : bool) : option mc :=
  let Nx := length x in let N := fft_len No Nx in
  if (Nx <? 2)%nat then None else if negb (log_even x) then None else if (N <? Nx)%nat then None else
  let D := spacing x in let s := lnxy UK q N lowring D in
  Some {| c_x := x; c_q := q; c_N := N; c_y := map (fun v => exp (s - D) / v) (rev x);
          c_u := map (fun m => UK (q, (2 * PI / INR N / D * INR m)%R) * cexp (0%R, (- (2 * PI * s / INR N / D * INR m))%R))%C (seq 0 (N/2 + 1));
          c_pre := map (fun _ => 1) x; c_post := map (fun _ => 1) x |}.
(** mcfit.py:163-196, paddings; [el], [er]: extrapolate on the left, on the right *)
Definition pad_l (el : bool) (n : nat) (f : list R) : list R :=
  map (fun i => if el then nth 0 f 0 * powerRZ (nth 1 f 0 / nth 0 f 0) (Z.of_nat i - Z.of_nat n) else 0) (seq 0 n).
Definition pad_r (er : bool) (n : nat) (f : list R) : list R :=
  let k := (length f - 1)%nat in
  map (fun i => if er then nth k f 0 * powerRZ (nth k f 0 / nth (k - 1) f 0) (Z.of_nat (S i)) else 0) (seq 0 n).
(** mcfit.py:144-204; None: ValueError (lengths differ) *)
Definition mc_call (c : mc) (F : list R) (el er : bool) : option (list R * list R) :=
  if negb (length F =? length (c_x c))%nat then None else
  let Nx := length (c_x c) in let N := c_N c in
  let f := map (fun i => nth i (c_pre c) 0 * Rpower (nth i (c_x c) 0) (- c_q c) * nth i F 0) (seq 0 Nx) in
  let Npad := (N - Nx)%nat in
  let p := rfft (pad_l el (Npad/2) f ++ f ++ pad_r er (Npad - Npad/2) f) in
  let g := map (fun v => v / INR N) (hfft (map (fun m => nth m p (RtoC 0) * nth m (c_u c) (RtoC 0))%C (seq 0 (N/2 + 1))) N) in
  let g := firstn (N - Npad/2 - (Npad - Npad/2)) (skipn (Npad - Npad/2) g) in
  Some (c_y c, map (fun i => nth i (c_post c) 0 * Rpower (nth i (c_y c) 0) (- c_q c) * nth i g 0) (seq 0 Nx)).

(** `self.prefac *= a`, `self.postfac *= b` *)
Definition times (p q : R -> R) (c : mc) : mc :=
  {| c_x := c_x c; c_q := c_q c; c_N := c_N c; c_y := c_y c; c_u := c_u c;
     c_pre := map (fun i => nth i (c_pre c) 0 * p (nth i (c_x c) 0)) (seq 0 (length (c_x c)));
     c_post := map (fun i => nth i (c_post c) 0 * q (nth i (c_y c) 0)) (seq 0 (length (c_x c))) |}.
Definition one (_ : R) : R := 1.
(** transforms.py:18-53, default tilt q *)
Definition Hankel (lg : C -> C) (nu : R) (x : list R) (N : option nat) (lowring : bool) : option mc :=
  option_map (times (fun v => v^2) one) (mc_init x (mellin_besselj lg nu) 1 N lowring).
Definition SphericalBessel (lg : C -> C) (nu : R) (x : list R) (N : option nat) (lowring : bool) : option mc :=
  option_map (times (fun v => v^3) one) (mc_init x (mellin_sphj lg nu) (3/2) N lowring).
Definition FourierSine (lg : C -> C) (x : list R) (N : option nat) (lowring : bool) : option mc :=
  option_map (times (fun v => v) one) (mc_init x (mellin_sine lg) (1/2) N lowring).
Definition FourierCosine (lg : C -> C) (x : list R) (N : option nat) (lowring : bool) : option mc :=
  option_map (times (fun v => v) one) (mc_init x (mellin_cosine lg) (1/2) N lowring).
(** cosmology.py:16-38. real_if_close(1j**l) is (-1)^(l/2) for even l = 2 h; odd l (complex factor) is not modelled. *)
Definition P2xi (lg : C -> C) (h : nat) (k : list R) (N : option nat) (lowring : bool) : option mc :=
  option_map (times (fun v => (-1)^h / Rpower (2*PI) (3/2) * v^3) one) (mc_init k (mellin_sphj lg (INR (2*h))) (3/2) N lowring).
Definition xi2P (lg : C -> C) (h : nat) (r : list R) (N : option nat) (lowring : bool) : option mc :=
  option_map (times (fun v => v^3) (fun _ => Rpower (2*PI) (3/2) / (-1)^h)) (mc_init r (mellin_sphj lg (INR (2*h))) (3/2) N lowring).
