(** What loading the theory section of a parameter file over the defaults should give. *)
From Coq Require Import List QArith.
Local Open Scope Q_scope.

(** a value between its bounds; a bound that is not given is no condition *)
Definition between (lo hi : option Q) (v : Q) : Prop :=
  (forall m, lo = Some m -> m <= v) /\ (forall m, hi = Some m -> v <= m).
(** what a line gives is what holds afterwards *)
Definition kept {A} (given : option A) (after : option A) : Prop := forall a, given = Some a -> after = Some a.
(** what a line leaves out stays as it was *)
Definition unchanged {A} (given before after : option A) : Prop := given = None -> after = before.
