(** * Specification vocabulary for the fitting driver *)
From Coq Require Import Reals List.
From Verif Require Import M_Prior S_Params S_Lbfgs.
Import ListNotations.
Open Scope R_scope.

(** every component of theta is inside its bounds and inside its uniform prior *)
Definition allowed (ss : list pspec) (th : list R) : Prop := Forall2 (fun s x => in_bounds s x /\ in_prior s x) ss th.
(** log of the prior density at an allowed point *)
Definition log_density (s : pspec) (x : R) : R :=
  match pprior s with
  | NoPrior => 0
  | Unif l u => - ln (u - l)
  | Norm mu sg => - / 2 * ln (2 * PI * sg ^ 2) - / 2 * ((x - mu) / sg) ^ 2
  end.
Definition total (l : list R) : R := fold_right Rplus 0 l.
Definition log_prior (ss : list pspec) (th : list R) : R :=
  total (map (fun sx => log_density (fst sx) (snd sx)) (combine ss th)).
(** (u - w)^T C (u - w), written with indices *)
Definition entry (C : list (list R)) (i j : nat) : R := nth j (nth i C []) 0.
Definition quad (N : nat) (C : list (list R)) (u w : list R) : R :=
  sum N (fun i => sum N (fun j => (e u i - e w i) * entry C i j * (e u j - e w j))).
(** an N by N matrix *)
Definition square (N : nat) (C : list (list R)) : Prop := length C = N /\ List.Forall (fun r => length r = N) C.
Definition symmetric (N : nat) (C : list (list R)) : Prop := forall i j, (i < N)%nat -> (j < N)%nat -> entry C i j = entry C j i.
(** x^T A x *)
Definition form (n : nat) (A : nat -> nat -> R) (x : list R) : R := sum n (fun i => sum n (fun j => e x i * A i j * e x j)).
Definition psd (n : nat) (A : nat -> nat -> R) : Prop := forall x, length x = n -> 0 <= form n A x.
(** priors in the exact (not smoothed) mode and well formed *)
Definition exact_priors (ss : list pspec) : Prop := List.Forall (fun s => pana s = false /\ prior_ok s) ss.
(** data, covariance and predictions of matching size *)
Definition consistent (pred : list R -> option (list R)) (d : list R) (C : list (list R)) (N : nat) : Prop :=
  length d = N /\ square N C /\ forall th m, pred th = Some m -> length m = N.
