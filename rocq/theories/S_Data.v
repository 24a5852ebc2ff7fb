(** * Vocabulary for the data properties (no reference to the model's algorithms) *)
From Coq Require Import List ZArith.
Import ListNotations.
Set Implicit Arguments.

(** a wavenumber within optional bounds ([None]: no bound), both ends included *)
Definition within (lo hi : option Z) (k : Z) : Prop :=
  (forall a, lo = Some a -> (a <= k)%Z) /\ (forall b, hi = Some b -> (k <= b)%Z).
(** a row (label, k) lies within the bounds given for its own block; labels listed in block order *)
Definition row_within (labels : list Z) (lo hi : list (option Z)) (row : Z * Z) : Prop :=
  exists b a h, nth_error labels b = Some (fst row) /\ nth_error lo b = Some a /\ nth_error hi b = Some h /\ within a h (snd row).
(** matrix index written Python-style: negative indices count from the end *)
Definition py_index (N : nat) (i : Z) (p : nat) : Prop :=
  p < N /\ (i = Z.of_nat p \/ i = Z.of_nat p - Z.of_nat N)%Z.
(** the last element satisfying a projection in a history, or the initial value *)
Fixpoint last_of (A B : Type) (f : A -> option B) (init : B) (h : list A) : B :=
  match h with [] => init | x :: h' => last_of f (match f x with Some b => b | None => init end) h' end.
(** strictly increasing *)
Fixpoint increasing (l : list nat) : Prop := match l with [] => True | x :: l' => Forall (fun y => x < y) l' /\ increasing l' end.
