(** * Specification vocabulary for the minimiser: explicit matrices *)
From Coq Require Import Reals List Arith.
Import ListNotations.
Local Open Scope R_scope.
(** sum of f 0 .. f (n-1) *)
Fixpoint sum (n : nat) (f : nat -> R) : R := match n with O => 0 | S n' => sum n' f + f n' end.
Definition delta (i j : nat) : R := if (i =? j)%nat then 1 else 0.
(** One stored update: parameter difference s, gradient difference y, and rho. *)
Record pair := mkPair { ps : list R; py : list R; prho : R }.
Definition e (v : list R) (i : nat) : R := nth i v 0.
(** V = I - rho y s^T *)
Definition Vmat (p : pair) (i j : nat) : R := delta i j - prho p * e (py p) i * e (ps p) j.
(** The BFGS inverse-Hessian built from the stored pairs (newest first) on top of h0 * I:
    H_new = V^T H_old V + rho s s^T *)
Fixpoint Hmat (N : nat) (h0 : R) (l : list pair) (i j : nat) : R :=
  match l with
  | [] => h0 * delta i j
  | p :: l' => sum N (fun a => sum N (fun b => Vmat p a i * Hmat N h0 l' a b * Vmat p b j)) + prho p * e (ps p) i * e (ps p) j
  end.
(** matrix-vector and scalar products written out *)
Definition mat_vec (N : nat) (A : nat -> nat -> R) (v : list R) (i : nat) : R := sum N (fun j => A i j * e v j).
Definition inner (N : nat) (u v : list R) : R := sum N (fun i => e u i * e v i).
