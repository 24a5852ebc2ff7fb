(** * Window convolution: a model of pyRSD/rsd/window.py:11-196
    Floats and the Fractions built from them are exact reals (rounding is not modelled). *)
From Coq Require Import String Reals List Arith Lia Bool.
Import ListNotations.
Set Implicit Arguments.

(** G(p), window.py:11-29: the loop  toret *= 1/2 + i - 1  for i = 1..p, then int(2**p) * toret, p!.
    (The loop variable shadows the argument, but ends equal to it.) *)
Fixpoint Gprod (p : nat) : R := match p with 0 => 1%R | S i => (Gprod i * (1 / 2 + INR (S i) - 1))%R end.
Definition G (p : nat) : R * R := (2 ^ p * Gprod p, INR (fact p))%R.

(** one pass of the loop of get_coefficients, window.py:46-72: numer/denom for this p. *)
Definition coefficient (ell ellp p : nat) : R :=
  ((fst (G (ell - p)) * fst (G p) * fst (G (ellp - p)) * snd (G (ell + ellp - p)) * (2 * (INR ell + INR ellp) - 4 * INR p + 1) * (2 * INR ell + 1))
   / (snd (G (ell - p)) * snd (G p) * snd (G (ellp - p)) * fst (G (ell + ellp - p)) * (2 * (INR ell + INR ellp) - 2 * INR p + 1) * (2 * INR (ell + ellp - 2 * p) + 1)))%R.
(** get_coefficients, window.py:31-77: the pairs (q, coefficient), for p = min, ..., 0 (the lists are reversed). *)
Fixpoint coeffs_upto (ell ellp p : nat) : list (nat * R) :=
  (ell + ellp - 2 * p, coefficient ell ellp p) :: match p with 0 => [] | S p' => coeffs_upto ell ellp p' end.
Definition get_coefficients (ell ellp : nat) : list (nat * R) := coeffs_upto ell ellp (Nat.min ell ellp).

Inductive wres (A : Type) := WOk (a : A) | WIndexError | WKeyError | WValueError.
Arguments WOk {A}. Arguments WIndexError {A}. Arguments WKeyError {A}. Arguments WValueError {A}.

(** range(0, n+1, 2) *)
Definition evens_to (n : nat) : list nat := map (fun i => 2 * i) (seq 0 (n / 2 + 1)).
(** kern[:,j] at one row of window multipoles, window.py:141-146: the einsum over W[:,q//2] and the coefficients. *)
Fixpoint kern_row (cs : list (nat * R)) (Wrow : list R) : R :=
  match cs with [] => 0%R | (q, c) :: cs' => (nth (q / 2) Wrow 0 * c + kern_row cs' Wrow)%R end.

(** interpolation of tabulated values (RSDSpline over scipy's FITPACK): s, values, x *)
Definition interpolator := list R -> list R -> R -> R.
Record window := { w_s : list R; w_W : list (list R); w_ncol : nat; w_maxlp : nat; w_maxl : nat }.
(** WindowConvolution.__init__ / _setup_kernels, window.py:109-149: W[:,qinds] raises IndexError if a column is missing. *)
Definition setup (w : window) : wres unit :=
  if forallb (fun ell => forallb (fun ellp => forallb (fun qc => fst qc / 2 <? w_ncol w) (get_coefficients ell ellp)) (evens_to (w_maxlp w))) (evens_to (w_maxl w))
  then WOk tt else WIndexError.
(** the tabulated kernel of the j-th spline stored for ell *)
Definition kern_table (w : window) (ell j : nat) : list R := map (kern_row (get_coefficients ell (2 * j))) (w_W w).
(** self.splines has the keys 0, 2, ..., max_ell *)
Definition has_spline (w : window) (ell : nat) : bool := Nat.even ell && (ell <=? w_maxl w).
Definition npoles (w : window) : nat := w_maxlp w / 2 + 1.
(** s.min(), s.max() *)
Fixpoint rmin (d : R) (l : list R) : R := match l with [] => d | x :: l' => rmin (Rmin d x) l' end.
Fixpoint rmax (d : R) (l : list R) : R := match l with [] => d | x :: l' => rmax (Rmax d x) l' end.
Definition smin (w : window) : R := rmin (hd 0%R (w_s w)) (w_s w).
Definition smax (w : window) : R := rmax (hd 0%R (w_s w)) (w_s w).
Definition covered (w : window) (x : R) : bool := if Rle_dec (smin w) x then (if Rle_dec x (smax w) then true else false) else false.
(** _get_kernel at one separation, window.py:151-167. *)
Definition kernel (I : interpolator) (w : window) (ell : nat) (x : R) : list R :=
  map (fun j => if covered w x then I (w_s w) (kern_table w ell j) x else if j =? ell / 2 then 1%R else 0%R) (seq 0 (npoles w)).
(** einsum('ij,ij->i') at one row *)
Fixpoint dot (a b : list R) : R := match a, b with x :: a', y :: b' => (x * y + dot a' b')%R | _, _ => 0%R end.
(** __call__, window.py:169-213 (the rows of xi as lists, [nc] its number of columns): the loop over ells, with xi truncated
    to the number of kernels when it has more columns. Result: one column per entry of ells. *)
Fixpoint call_loop (I : interpolator) (w : window) (ells : list nat) (r : list R) (xi : list (list R)) (nc : nat) : wres (list (list R)) :=
  match ells with
  | [] => WOk []
  | ell :: ells' =>
    if negb (has_spline w ell) then WKeyError
    else let step xi' nc' :=
           match call_loop I w ells' r xi' nc' with
           | WOk cols => WOk (map (fun p => dot (snd p) (kernel I w ell (fst p))) (combine r xi') :: cols)
           | e => e end in
         if nc =? npoles w then step xi nc
         else if npoles w <? nc then step (map (firstn (npoles w)) xi) (npoles w)
         else WValueError
  end.
