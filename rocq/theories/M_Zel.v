(** Model of the C++ linear and Zel'dovich spectra (_gcl/cpp/LinearPS.cpp, ZeldovichPS.cpp, ZeldovichCF.cpp, the sigma8 part of
    Cosmology.cpp) and of their Python pickling (pygcl.py). Doubles are reals. The numerical building blocks (the adaptive
    integrator, spherical Bessel functions, the Fortran FFTLog transform followed by the interpolation to one wavenumber, the
    transform of a tabulated spectrum to a correlation function) are arbitrary functions collected in [numerics]. *)
From Coq Require Import Reals List Lra.
Import ListNotations.
Local Open Scope R_scope.

Record numerics := {
  n_intexp : (R -> R) -> R -> R -> R;   (* Integrate<ExpSub>(f, a, b, 1e-5, 1e-12), Quadrature.inl:240-247 *)
  n_int : (R -> R) -> R -> R -> R;      (* Integrate(f, a, b, 1e-4, 1e-10), Quadrature.inl:221-227 *)
  n_j0 : R -> R; n_j1 : R -> R;         (* SphericalBesselJ0/J1 *)
  n_fft : nat -> R -> list R -> R;      (* order n + 1/2: FFTLog of the table, interpolated at k (ZeldovichPS.cpp:133-146) *)
  n_xi : list R -> list R -> R -> R -> R (* pk_to_xi(0, k, Pk, r, smoothing), CorrelationFunction.cpp:130-134 *) }.

(** Cosmology (include/Cosmology.h:81-90): the engine's sigma8, sigma8(z), n_s and the transfer function, and the two mutable
    normalisations sigma8_ and delta_H_. *)
Record cosmology := {
  c_eng8 : R; c_eng8z : R -> R; c_ns : R; c_T : R -> R;
  c_s8 : R; c_dH : R }.

(** Cosmology.cpp:168-173 (top-hat variance integrand of the unnormalised spectrum, R = 8). *)
Definition f_sigma (N : numerics) (c : cosmology) (k : R) : R :=
  let kr := k * 8 in
  let j := if Rlt_dec kr (1/10000) then 1/3 - kr*kr/30 else n_j1 N kr / kr in
  k*k/(2*PI*PI) * Rpower k (c_ns c) * (c_T c k)^2 * (3*j)^2.
Definition sigma2_un (N : numerics) (c : cosmology) : R := n_intexp N (f_sigma N c) (1/100000) 100.
(** Cosmology.cpp:175-184 and Cosmology.h:53: SetSigma8 stores sigma8_ and normalises delta_H_. *)
Definition c_set8 (N : numerics) (s : R) (c : cosmology) : cosmology :=
  {| c_eng8 := c_eng8 c; c_eng8z := c_eng8z c; c_ns := c_ns c; c_T := c_T c; c_s8 := s; c_dH := s / sqrt (sigma2_un N c) |}.
(** Cosmology.h:54 *)
Definition sigma8z (c : cosmology) (z : R) : R := c_eng8z c z * (c_s8 c / c_eng8 c).

(** LinearPS (LinearPS.h:48-52). *)
Record linps := { l_z : R; l_s8z : R }.
(** LinearPS.cpp:5-9 *)
Definition lin_new (c : cosmology) (z : R) : linps := {| l_z := z; l_s8z := sigma8z c z |}.
(** LinearPS.cpp:11-16 *)
Definition lin_eval (c : cosmology) (l : linps) (k : R) : R :=
  (c_dH c)^2 * (l_s8z l / c_s8 c)^2 * Rpower k (c_ns c) * (c_T c k)^2.
(** LinearPS.h:46 *)
Definition lin_set (s : R) (l : linps) : linps := {| l_z := l_z l; l_s8z := s |}.

(** PowerSpectrum.cpp:56-58, 94-100, 111-118, 129-136 *)
Definition veldisp (N : numerics) (P : R -> R) : R := 1/(6*PI*PI) * n_intexp N P (1/100000) 100.
Definition X_zel (N : numerics) (P : R -> R) (k : R) : R :=
  1/(2*PI*PI) * n_int N (fun q => P q * (-2 * n_j1 N (k*q) / (k*q))) (1/100000) 100.
Definition Y_zel (N : numerics) (P : R -> R) (k : R) : R :=
  1/(2*PI*PI) * n_int N (fun q => P q * (-2 * n_j0 N (k*q) + 6 * n_j1 N (k*q) / (k*q))) (1/100000) 100.
Definition Q3_zel (N : numerics) (P : R -> R) (k : R) : R :=
  1/(10*PI*PI) * k^4 * n_int N (fun q => P q * P q / q / q) (1/100000) 100.

(** ZeldovichPS (ZeldovichPS.h:53-71) without the reference to the cosmology, which is passed to the methods. *)
Record zel := { z_s8z : R; z_lin : linps; z_approx : bool; z_k0 : R; z_sig2 : R; z_X0 : list R; z_XX : list R; z_YY : list R }.

(** ZeldovichPS.cpp:41-53, NUM_PTS = 1024, RMIN = 1e-2, RMAX = 1e5 *)
Definition zel_r : list R :=
  map (fun i => Rpower 10 (3/2 + (INR i - 1025/2) * (7/1024))) (seq 1 1024).

(** ZeldovichPS.cpp:15-30. *)
Definition zel_new (N : numerics) (c : cosmology) (z : R) (approx : bool) : zel :=
  let s := sigma8z c z in
  let P0 := lin_eval c (lin_new c 0) in
  let norm := (s / c_s8 c)^2 in
  let sig2 := norm * veldisp N P0 in
  let X0 := map (fun r => norm * X_zel N P0 r) zel_r in
  {| z_s8z := s; z_lin := lin_new c z; z_approx := approx; z_k0 := 5/1000; z_sig2 := sig2;
     z_X0 := X0; z_XX := map (fun x => x + 2 * sig2) X0; z_YY := map (fun r => norm * Y_zel N P0 r) zel_r |}.

(** ZeldovichPS.cpp:32-39, the constructor used by unpickling. *)
Definition zel_restore (c : cosmology) (approx : bool) (s8z k0 sig2 : R) (X0 XX YY : list R) : zel :=
  {| z_s8z := s8z; z_lin := lin_set s8z (lin_new c 0); z_approx := approx; z_k0 := k0; z_sig2 := sig2; z_X0 := X0; z_XX := XX; z_YY := YY |}.

(** ZeldovichPS.cpp:95-109. When the stored sigma8_z is 0 every integral is 0 and the ratio is not finite, so that every
    integral becomes NaN, and NaN times any later ratio is NaN again: the object [None]. *)
Definition zel_set8 (s : R) (o : option zel) : option zel :=
  match o with
  | None => None
  | Some t =>
    if Req_EM_T (z_s8z t) 0 then None else
    let ratio := (s / z_s8z t)^2 in
    Some {| z_s8z := s; z_lin := lin_set s (z_lin t); z_approx := z_approx t; z_k0 := z_k0 t; z_sig2 := z_sig2 t * ratio;
            z_X0 := map (fun x => x * ratio) (z_X0 t); z_XX := map (fun x => x * ratio) (z_XX t); z_YY := map (fun x => x * ratio) (z_YY t) |}
  end.
(** ZeldovichPS.h:33-34 *)
Definition zel_lowk (b : bool) (t : zel) : zel :=
  {| z_s8z := z_s8z t; z_lin := z_lin t; z_approx := b; z_k0 := z_k0 t; z_sig2 := z_sig2 t; z_X0 := z_X0 t; z_XX := z_XX t; z_YY := z_YY t |}.
Definition zel_trans (k0 : R) (t : zel) : zel :=
  {| z_s8z := z_s8z t; z_lin := z_lin t; z_approx := z_approx t; z_k0 := k0; z_sig2 := z_sig2 t; z_X0 := z_X0 t; z_XX := z_XX t; z_YY := z_YY t |}.

(** What a user can do with the object and with the cosmology it refers to. *)
Inductive zop := ZSet8 (s : R) | ZLowK (b : bool) | ZTrans (k0 : R) | ZCosmo8 (s : R).
Definition zstep (N : numerics) (w : cosmology * option zel) (o : zop) : cosmology * option zel :=
  let '(c, z) := w in
  match o with
  | ZSet8 s => (c, zel_set8 s z)
  | ZLowK b => (c, option_map (zel_lowk b) z)
  | ZTrans k0 => (c, option_map (zel_trans k0) z)
  | ZCosmo8 s => (c_set8 N s c, z)
  end.
Definition zrun (N : numerics) (w : cosmology * option zel) (l : list zop) : cosmology * option zel := fold_left (zstep N) l w.

(** The three spectra. *)
Inductive kind := P00 | P01 | P11.
Fixpoint map4 (f : R -> R -> R -> R -> R) (a b c d : list R) : list R :=
  match a, b, c, d with x :: a', y :: b', z :: c', w :: d' => f x y z w :: map4 f a' b' c' d' | _, _, _, _ => [] end.
(** ZeldovichPS.cpp:190-196, 237-242, 278-288 *)
Definition fprim1 (q : kind) (k sig2 r x0 xx yy : R) : R :=
  match q with
  | P00 => Rpower r (3/2) * (exp (-(1/2)*k^2*(xx + yy)) - exp (-k^2*sig2))
  | P01 => Rpower r (3/2) * k^2 * ((xx + yy)*exp (-(1/2)*k^2*(xx + yy)) - 2*sig2*exp (-k^2*sig2))
  | P11 => Rpower r (3/2) *
     ((k^4*xx^2 - 2*k^2*x0 + 2*(k^2*xx - 1)*k^2*yy + k^4*yy^2)*exp (-(1/2)*k^2*(xx + yy)) + -4*k^4*sig2^2*exp (-k^2*sig2))
  end.
(** ZeldovichPS.cpp:198-203, 244-249, 290-300; the exponent is a whole number. *)
Definition fsec1 (q : kind) (k : R) (n : nat) (r x0 xx yy : R) : R :=
  match q with
  | P00 => Rpower r (3/2 - INR n) * (k*yy)^n * exp (-(1/2)*k^2*(xx + yy))
  | P01 => Rpower r (3/2 - INR n) * (k*yy)^n * (k^2*(xx + yy) - 2*INR n) * exp (-(1/2)*k^2*(xx + yy))
  | P11 => Rpower r (3/2 - INR n) * (k*yy)^n *
     ((k^4*xx^2 - 2*k^2*x0 + 2*(k^2*xx - 1)*(k^2*yy - 2*INR n)) + (k^4*yy^2 - 4*k^2*INR n*yy + 4*INR n*(INR n - 1))) *
     exp (-(1/2)*k^2*(xx + yy))
  end.
(** ZeldovichPS.cpp:127-131 *)
Definition table (q : kind) (t : zel) (k : R) (n : nat) : list R :=
  match n with
  | O => map4 (fprim1 q k (z_sig2 t)) zel_r (z_X0 t) (z_XX t) (z_YY t)
  | _ => map4 (fsec1 q k n) zel_r (z_X0 t) (z_XX t) (z_YY t)
  end.
(** ZeldovichPS.cpp:185, 232, 273 *)
Definition factor (q : kind) : R := match q with P00 => 4*PI | P01 => -2*PI | P11 => PI end.
(** ZeldovichPS.cpp:112-151, NMAX = 15 *)
Fixpoint rsum (l : list R) : R := match l with [] => 0 | x :: r => x + rsum r end.
Definition fftlog_compute (N : numerics) (q : kind) (t : zel) (k : R) : R :=
  rsum (map (fun n => factor q * sqrt (1/2*PI) * Rpower k (-(3/2)) * n_fft N n k (table q t k n)) (seq 0 16)).
(** ZeldovichPS.cpp:205-208, 224-227, 265-268 *)
Definition lowk (N : numerics) (q : kind) (c : cosmology) (t : zel) (k : R) : R :=
  let P := lin_eval c (z_lin t) in
  match q with
  | P00 => (1 - k^2*z_sig2 t + 1/2*k^4*(z_sig2 t)^2) * P k + 1/2 * Q3_zel N P k
  | P01 => (1 - 2*k^2*z_sig2 t) * P k + Q3_zel N P k
  | P11 => (1 - 3*k^2*z_sig2 t) * P k + 3/2 * Q3_zel N P k
  end.
(** ZeldovichPS.cpp:182-188, 230-235, 270-276 *)
Definition zel_eval (N : numerics) (q : kind) (c : cosmology) (o : option zel) (k : R) : option R :=
  match o with
  | None => None
  | Some t => Some (if (if Rle_dec (z_k0 t) k then true else negb (z_approx t)) then fftlog_compute N q t k else lowk N q c t k)
  end.

(** Python pickling of ZeldovichPS (pygcl.py:246-253; the cosmology is pickled with it) and of LinearPS (pygcl.py:139-151). *)
Definition zel_getstate (t : zel) := (z_approx t, z_s8z t, z_k0 t, z_sig2 t, z_X0 t, z_XX t, z_YY t).
Definition zel_setstate (c : cosmology) (st : bool * R * R * R * list R * list R * list R) : zel :=
  let '(a, s, k0, sg, X0, XX, YY) := st in zel_restore c a s k0 sg X0 XX YY.
(** LinearPS: [args] is the tuple of constructor arguments after the cosmology; None: Python raises (IndexError). *)
Definition lin_init (c : cosmology) (args : list R) : option linps :=
  match args with [] => Some (lin_new c 0) | [z] => Some (lin_new c z) | _ => None end.
Definition lin_getstate (args : list R) (l : linps) : list R := args ++ [l_s8z l].
Definition lin_setstate (c : cosmology) (st : list R) : option linps :=
  match lin_init c (firstn 1 st), nth_error st 1 with Some l, Some s => Some (lin_set s l) | _, _ => None end.
(** ZeldovichP00/P01/P11 built from (cosmology, z, approx): only these arguments are pickled (pygcl.py:28-34, 258-280). *)
Definition zelp_unpickle (N : numerics) (c : cosmology) (z : R) (approx : bool) : zel := zel_new N c z approx.

(** ZeldovichCF (ZeldovichCF.h:30-34). *)
Record zcf := { f_P : option zel; f_s8z : R; f_grid : list R; f_pk : list (option R) }.
(** parray::logspace (parray.cpp:101-129) *)
Definition logspace (a b : R) (n : nat) : list R :=
  map (fun i => if Nat.eqb i 0 then a else if Nat.eqb i (n - 1) then b else exp (ln a + INR i * (ln b - ln a) / INR (n - 1))) (seq 0 n).
Definition pk_of (N : numerics) (c : cosmology) (P : option zel) (g : list R) : list (option R) := map (zel_eval N P00 c P) g.
(** ZeldovichCF.cpp:9-15 *)
Definition zcf_new (N : numerics) (c : cosmology) (z kmin kmax : R) : zcf :=
  let P := Some (zel_new N c z true) in let g := logspace kmin kmax 1024 in
  {| f_P := P; f_s8z := sigma8z c z; f_grid := g; f_pk := pk_of N c P g |}.
(** ZeldovichCF.cpp:51-55 *)
Definition zcf_set8 (s : R) (x : zcf) : zcf := {| f_P := f_P x; f_s8z := s; f_grid := f_grid x; f_pk := f_pk x |}.
Definition all_some (l : list (option R)) : option (list R) :=
  fold_right (fun o r => match o, r with Some x, Some l => Some (x :: l) | _, _ => None end) (Some []) l.
(** ZeldovichCF.cpp:32-35: the synchronisation before every evaluation. sigma8_z and the stored sigma8_z of the spectrum are
    ordinary numbers, also when the integrals are NaN, in which case the grid stays NaN. *)
Definition zcf_sync (N : numerics) (c : cosmology) (x : zcf) : zcf :=
  match f_P x with
  | None => x
  | Some t => if Req_EM_T (f_s8z x) (z_s8z t) then x else
      let P := zel_set8 (f_s8z x) (f_P x) in {| f_P := P; f_s8z := f_s8z x; f_grid := f_grid x; f_pk := pk_of N c P (f_grid x) |}
  end.
(** ZeldovichCF.cpp:27-38; None is NaN *)
Definition zcf_eval (N : numerics) (c : cosmology) (x : zcf) (r smoothing : R) : zcf * option R :=
  let x' := zcf_sync N c x in (x', option_map (fun p => n_xi N (f_grid x') p r smoothing) (all_some (f_pk x'))).
Inductive cfop := CfSet8 (s : R) | CfEval (r smoothing : R).
Definition cfstep (N : numerics) (c : cosmology) (x : zcf) (o : cfop) : zcf :=
  match o with CfSet8 s => zcf_set8 s x | CfEval r s => fst (zcf_eval N c x r s) end.
Definition cfrun (N : numerics) (c : cosmology) (x : zcf) (l : list cfop) : zcf := fold_left (cfstep N c) l x.
