(** Specification of the fiducial values. *)
From Coq Require Import List.
From Verif Require Import M_ParamVal.
Import ListNotations.

(** every expression names a parameter without expression (true of the default theories) *)
Definition anchored (expr : nat -> option (list nat)) : Prop := forall n l, expr n = Some l -> exists u, In u l /\ expr u = None.
(** what reading a parameter without expression gives *)
Definition shows {V} (vary : nat -> bool) (clamp : nat -> V -> V) (st : vst V) (u : nat) (v : V) : Prop :=
  v = if vary u then clamp u (val st u) else val st u.
