(** * The Gelman-Rubin statistic

    /repo/pyRSD/rsdfit/analysis/stats.py:8-26 (gelman_rubin_convergence) and
    /repo/pyRSD/rsdfit/solvers/emcee_solver.py:190-227 (test_convergence).
    Numpy works on all parameters at once; the model treats one parameter: a chain is the list of its values.
    Real numbers instead of floats; a division by zero (NaN or inf in numpy) is excluded in the theorems that need it. *)
From Coq Require Import Reals List.
Import ListNotations.
Open Scope R_scope.

Fixpoint total (l : list R) : R := match l with [] => 0 | x :: l => x + total l end.
(** np.mean, np.var *)
Definition mean (l : list R) : R := total l / INR (length l).
Definition var (l : list R) : R := mean (map (fun x => (x - mean l) ^ 2) l).
(** stats.py:12-25 with n given *)
Definition between (n : R) (chains : list (list R)) : R :=
  total (map (fun c => n * (mean (map mean chains) - mean c) ^ 2 / (INR (length chains) - 1)) chains).
Definition within (chains : list (list R)) : R := mean (map var chains).
Definition estvar (n : R) (chains : list (list R)) : R := (1 - 1 / n) * within chains + between n chains / n.
Definition scale_reduction (n : R) (chains : list (list R)) : R := sqrt (estvar n chains / within chains).
(** stats.py:8-26: n is the length of the first chain *)
Definition gelman_rubin (chains : list (list R)) : R := scale_reduction (INR (length (hd [] chains))) chains.
(** emcee_solver.py:223-227: all parameters within epsilon of one *)
Definition converged (epsilon : R) (rs : list R) : Prop := Forall (fun r => Rabs (1 - r) <= epsilon) rs.
(** emcee_solver.py:202-208: with Python 3, niter/2 is a float and cannot be a slice bound; with Python 2 it is an integer.
    [None]: TypeError *)
Definition first_kept (python3 : bool) (niter : nat) : option nat := if python3 then None else Some (Nat.max (Nat.div niter 2) 1).
