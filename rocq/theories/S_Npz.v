(** * What it means that results were read back unchanged *)
From Coq Require Import String List Arith.
From Verif Require Import M_Results.
Import ListNotations.

(** the same names, chains, probabilities and burn-in; every parameter shows the same trace, without the iterations of the burn-in *)
Definition same_results {V} (a b : results V) : Prop :=
  free b = free a /\ con b = con a /\ chain b = chain a /\ cchain b = cchain a /\ lnprobs b = lnprobs a /\ burnin b = burnin a /\
  (forall k, trace_of b k = trace_of a k) /\
  (forall k t, trace_of a k = Some t -> flat_trace b k = Some (concat (map (skipn (burnin a)) t))).
