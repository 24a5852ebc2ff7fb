(** * Specification: what a parameter's value should be *)
From Coq Require Import List Reals.
From Coquelicot Require Import Coquelicot.
From Verif Require Import M_Prep S_Prep M_ParamVal.
Import ListNotations.

(** The values assigned last. *)
Definition assigned {V} (base : nat -> V) (o : vop) : nat -> V :=
  match o with VSet n v => upd base n v | VGet _ => base end.

(** [solves D]: every unconstrained parameter has its assigned value, every
    constrained one the (clipped) value of its expression at the values of the
    parameters in it -- transitively. *)
Definition solves {V} (expr : nat -> option (list nat)) (fexp : nat -> list V -> V) (clamp : nat -> V -> V)
    (base D : nat -> V) : Prop :=
  forall n, D n = match expr n with None => base n | Some l => clamp n (fexp n (map D l)) end.

(** Differentiability of a function of all parameters, with partial derivatives [p]
    over the finite list [ns]: the chain rule holds along every differentiable curve. *)
Definition differentiable_at (ns : list nat) (P : (nat -> R) -> R) (x p : nat -> R) : Prop :=
  forall (c : R -> nat -> R) (c' : nat -> R) (t : R),
    (forall n, In n ns -> c t n = x n) ->
    (forall n, In n ns -> is_derive (fun s => c s n) t (c' n)) ->
    is_derive (fun s => P (c s)) t (fold_right (fun n s => (p n * c' n + s)%R) 0%R ns).
