(** Model of the Kaiser spectrum (_gcl/cpp/Kaiser.cpp), of the interpolation on the FFTLog mesh (_gcl/cpp/ZeldovichPS.cpp:58-82) and of the top-hat
    windows (_gcl/cpp/PowerSpectrum.cpp:29-34, _gcl/cpp/Cosmology.cpp:168-173). Doubles are reals. *)
From Coq Require Import Reals List Lra ZArith.
From Verif Require M_Disc.
Import ListNotations.
Local Open Scope R_scope.

(** Kaiser.cpp:8-11: the object; k_P is the real-space spectrum it was built from *)
Record kaiser := { k_P : R -> R; k_f : R; k_b1 : R }.
(** Kaiser.cpp:13-15 *)
Definition kaiser_s (K : kaiser) (k mu : R) : R := (1 + k_f K * mu * mu) ^ 2 * k_P K k.
(** Kaiser.cpp:17-31 *)
Definition kaiser_prefactor (K : kaiser) (ell : Z) : R :=
  let beta := k_f K / k_b1 K in
  (if (ell =? 0)%Z then 1 + 2/3 * beta + 1/5 * beta ^ 2 else if (ell =? 2)%Z then 4/3 * beta + 4/7 * beta ^ 2 else if (ell =? 4)%Z then 8/35 * beta ^ 2 else 0) * k_b1 K ^ 2.
(** Kaiser.cpp:33-39 *)
Definition kaiser_ell (K : kaiser) (ell : Z) (k : R) : R := kaiser_prefactor K ell * k_P K k.
(** pygcl.py:115-123: only the constructor arguments are stored, and the bias when it was not given *)
Definition kaiser_setf (K : kaiser) (f : R) : kaiser := {| k_P := k_P K; k_f := f; k_b1 := k_b1 K |}.      (* Kaiser.h: SetGrowthRate *)
Definition kaiser_setb (K : kaiser) (b : R) : kaiser := {| k_P := k_P K; k_f := k_f K; k_b1 := b |}.      (* Kaiser.h: SetLinearBias *)

(** ZeldovichPS.cpp:58-82, one point xi; None: an element outside the table is read. Ties keep the earlier index. *)
Fixpoint nearest_from (xs : list R) (x : R) (j k : nat) (d : R) : nat :=
  match xs with
  | [] => k
  | y :: t => let d2 := Rabs (x - y) in if Rlt_dec d2 d then nearest_from t x (S j) j d2 else nearest_from t x (S j) k d
  end.
Definition nearest (xs : list R) (x : R) : nat :=
  match xs with [] => 0 | y :: t => nearest_from t x 1 0 (Rabs (x - y)) end.
Definition line (x0 y0 x1 y1 x : R) : R := y1 + (y0 - y1) / (x0 - x1) * (x - x1).
Definition nearest_interp (xs ys : list R) (x : R) : option R :=
  let k := nearest xs x in
  match nth_error xs k, nth_error ys k with
  | Some xk, Some yk =>
      if Rlt_dec xk x then
        match nth_error xs (S k), nth_error ys (S k) with Some xl, Some yl => Some (line xk yk xl yl x) | _, _ => None end
      else if Rlt_dec x xk then
        match k with
        | O => None
        | S l => match nth_error xs l, nth_error ys l with Some xl, Some yl => Some (line xk yk xl yl x) | _, _ => None end
        end
      else Some yk
  | _, _ => None
  end.

(** PowerSpectrum.cpp:29-34 *)
Definition W_ps (x : R) : R := if Rlt_dec x (1/100000) then 1 - 1/30 * x * x else 3 / x ^ 3 * (sin x - x * cos x).
(** Cosmology.cpp:170-172: 3 j1(x)/x, with SphericalBesselJ1 (SpecialFunctions.cpp) equal to sin x / x^2 - cos x / x *)
Definition W_cosmo (x : R) : R := 3 * (if Rlt_dec x (1/10000) then 1/3 - x * x / 30 else (sin x / x ^ 2 - cos x / x) / x).
(** Pickling, pygcl.py:28-34 and 110-123: the arguments given to the constructor, completed by the present bias if it was left out *)
Record pykaiser := { pk_args : (R -> R) * R * option R; pk_obj : kaiser }.
Definition py_new (P : R -> R) (f : R) (b : option R) : pykaiser :=
  {| pk_args := (P, f, b); pk_obj := {| k_P := P; k_f := f; k_b1 := match b with Some v => v | None => 1 end |} |}.
Definition py_pickle (K : pykaiser) : pykaiser :=
  match pk_args K with (P, f, b) => py_new P f (match b with Some v => Some v | None => Some (k_b1 (pk_obj K)) end) end.
Definition py_set (g : kaiser -> kaiser) (K : pykaiser) : pykaiser := {| pk_args := pk_args K; pk_obj := g (pk_obj K) |}.
(** Kaiser.cpp:41-54: the wavenumber grid of Xi_ell, with the limits 0 and 100 of Kaiser.h:26-27 unless given *)
Definition xi_grid (lim : option (R * R)) (N : nat) : option (list R) :=
  match lim with Some (a, b) => M_Disc.p_logspace a b N | None => M_Disc.p_logspace 0 100 N end.
