(** Specification of the initial walkers: the support of the priors, and "try at most 101 new draws". *)
From Coq Require Import Reals List Arith.
Import ListNotations.
From Verif Require Import M_Init.
Local Open Scope R_scope.

(** the value is allowed: inside the bounds, and inside a uniform prior *)
Definition allowed (p : par) (x : R) : Prop :=
  (forall l, pmin p = Some l -> l <= x) /\ (forall u, pmax p = Some u -> x <= u) /\ (forall l u, pri p = Uniform l u -> l <= x <= u).
(** candidates of a walker: its first row, then the draws from number [i] on *)
Definition candidate (w : list R) (draws : nat -> list R) (i j : nat) : list R := match j with O => w | S j => draws (i + j)%nat end.
(** [out] is the first allowed candidate, or the last of 101 redraws *)
Definition first_allowed (ps : list par) (cand : nat -> list R) (used : nat) (out : list R) : Prop :=
  out = cand used /\ (used <= 101)%nat /\ (forall j, (j < used)%nat -> ~ Forall2 allowed ps (cand j)) /\ ((used < 101)%nat -> Forall2 allowed ps (cand used)).
Fixpoint total (l : list nat) : nat := match l with [] => 0%nat | x :: l => (x + total l)%nat end.
Definition zero : list R := [].
(** the number of entries of [l] for which [P] holds *)
Inductive counted (P : nat -> Prop) : list nat -> nat -> Prop :=
| c_nil : counted P [] 0
| c_yes x l n : P x -> counted P l n -> counted P (x :: l) (S n)
| c_no x l n : ~ P x -> counted P l n -> counted P (x :: l) n.
