(** * What the summaries of a chain should satisfy *)
From Coq Require Import Reals List Permutation.
Import ListNotations.
Local Open Scope R_scope.

(** an interval (lower, upper), relative to the median, encloses another one *)
Definition encloses (outer inner : R * R) : Prop := fst outer <= fst inner /\ snd inner <= snd outer.
(** the same samples after the burn-in, walker by walker in any order *)
Definition same_samples (burnin : nat) (t u : list (list R)) : Prop :=
  Permutation (concat (map (skipn burnin) t)) (concat (map (skipn burnin) u)).
(** every sample replaced *)
Definition every (g : R -> R) (t : list (list R)) : list (list R) := map (map g) t.
(** half of the width *)
Definition half_width (i : R * R) : R := (snd i - fst i) / 2.
