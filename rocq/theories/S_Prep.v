(** * Specification of the constraint graph *)
From Coq Require Import List Arith.
Import ListNotations.

(** [edge n c]: the expression of parameter n mentions parameter c. *)
Definition edge (names : list nat) (expr : nat -> option (list nat)) (n c : nat) : Prop :=
  In n names /\ In c names /\ exists l, expr n = Some l /\ In c l.

(** n depends on x, directly or through other constrained parameters *)
Inductive depends (names : list nat) (expr : nat -> option (list nat)) : nat -> nat -> Prop :=
| dep_direct n c : edge names expr n c -> depends names expr n c
| dep_via n c x : edge names expr n c -> depends names expr c x -> depends names expr n x.

Definition acyclic (names : list nat) (expr : nat -> option (list nat)) : Prop :=
  exists rank : nat -> nat, forall n c, edge names expr n c -> rank c < rank n.
