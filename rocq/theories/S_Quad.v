(** What an adaptive quadrature should return. *)
From Coq Require Import Reals List Permutation.
Import ListNotations.
Local Open Scope R_scope.
Fixpoint lsum (l : list R) : R := match l with [] => 0 | x :: t => x + lsum t end.
(** A list of intervals cuts [a, b] into pieces: all lie inside, and every function of intervals of the form F(d) - F(c) adds up to that
    of the whole (taking for F a step function: every point is covered exactly once). *)
Definition cuts (a b : R) (l : list (R * R)) : Prop :=
  (forall c d, In (c, d) l -> a <= c <= d /\ d <= b) /\ forall F : R -> R, lsum (map (fun I => F (snd I) - F (fst I)) l) = F b - F a.
(** One bisection: an interval with the largest estimate is replaced by its halves (the order of the intervals does not matter). *)
Definition bisects (est : R * R -> R) (l l' : list (R * R)) : Prop :=
  exists c d rest, Permutation l ((c, d) :: rest) /\ (forall I, In I rest -> est I <= est (c, d)) /\ Permutation l' ((c, (c + d) / 2) :: ((c + d) / 2, d) :: rest).
(** One bisection or more, every list after the first and before the last failing to meet the goal. *)
Inductive refines (est : R * R -> R) (met : list (R * R) -> Prop) : list (R * R) -> list (R * R) -> Prop :=
| ref_one l l' : bisects est l l' -> refines est met l l'
| ref_more l l' l'' : bisects est l l' -> ~ met l' -> refines est met l' l'' -> refines est met l l''.
(** The accuracy asked for. *)
Definition accurate (val est : R * R -> R) (epsrel epsabs : R) (l : list (R * R)) : Prop :=
  lsum (map est l) <= Rmax epsabs (epsrel * Rabs (lsum (map val l))).
