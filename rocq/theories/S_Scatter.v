(** Specification of a scattered start. *)
From Coq Require Import Reals List.
From Verif Require Import M_Init S_Init.
Import ListNotations.
Local Open Scope R_scope.

(** [p] is the point at [x] displaced by the deviates [z] times the fraction [s] of each value *)
Definition displaced (s : R) (x z p : list R) : Prop :=
  length p = length x /\ forall i a b, nth_error x i = Some a -> nth_error z i = Some b -> nth_error p i = Some (a + s * a * b).
(** all values are allowed by bounds and uniform priors *)
Definition all_allowed (ps : list par) (p : list R) : Prop := Forall2 allowed ps p.
