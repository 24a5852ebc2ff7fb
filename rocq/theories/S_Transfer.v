(** * Vocabulary for the transfer properties: finite sums over grid points, wedges (no algorithms of the model) *)
From Coq Require Import Reals List Arith.
Import ListNotations.
Set Implicit Arguments.

(** sum of f over a list of points *)
Fixpoint rsum (f : nat -> R) (l : list nat) : R := match l with [] => 0%R | p :: l' => (f p + rsum f l')%R end.
(** f over l weighted by w *)
Definition wmean (w f : nat -> R) (l : list nat) : R := (rsum (fun p => w p * f p) l / rsum w l)%R.
(** x lies in the half-open interval *)
Definition inside (b : R * R) (x : R) : Prop := (fst b <= x < snd b)%R.
(** the bounds are listed in order, wedge after wedge *)
Fixpoint ordered_from (x : R) (b : list (R * R)) : Prop :=
  match b with [] => True | (lo, hi) :: b' => (x <= lo)%R /\ (lo <= hi)%R /\ ordered_from hi b' end.
Definition ordered (b : list (R * R)) : Prop := match b with [] => True | (lo, hi) :: b' => (lo <= hi)%R /\ ordered_from hi b' end.
(** neighbouring wedges share their boundary *)
Fixpoint contiguous_from (x : R) (b : list (R * R)) (y : R) : Prop :=
  match b with [] => x = y | (lo, hi) :: b' => x = lo /\ (lo <= hi)%R /\ contiguous_from hi b' y end.
(** the points of a list selected by a decidable condition, listed without repetition in increasing order *)
Definition selects (l : list nat) (n : nat) (cond : nat -> Prop) : Prop :=
  NoDup l /\ (forall p, In p l <-> p < n /\ cond p).
