(** What the contours of a 2D posterior should be: the sums over the cells of a histogram, in the order in which they are given. *)
From Coq Require Import List Arith ZArith QArith.
Import ListNotations.
Local Open Scope nat_scope.

Fixpoint samples (h : list nat) : nat := match h with [] => 0 | x :: h => x + samples h end.
(** the samples in the cells with at least v samples: what the contour at the level v encloses *)
Fixpoint enclosed (v : nat) (h : list nat) : nat := match h with [] => 0 | x :: h => (if v <=? x then x else 0) + enclosed v h end.
(** the samples in the cells with more than v samples *)
Fixpoint above (v : nat) (h : list nat) : nat := match h with [] => 0 | x :: h => (if v <? x then x else 0) + above v h end.
(** n samples are at least the fraction lvl of the histogram *)
Definition at_least (lvl : Q) (n : nat) (h : list nat) : Prop := (lvl * inject_Z (Z.of_nat (samples h)) <= inject_Z (Z.of_nat n))%Q.
(** each level above the one before: what matplotlib's contourf requires of its levels *)
Fixpoint increasing (l : list nat) : Prop := match l with x :: ((y :: _) as t) => x < y /\ increasing t | _ => True end.
Fixpoint non_decreasing (l : list nat) : Prop := match l with x :: ((y :: _) as t) => x <= y /\ non_decreasing t | _ => True end.

(** the number of samples with the first parameter in the cell a and the second one in the cell b *)
Fixpoint joint (first second : Z -> nat) (xs ys : list Z) (a b : nat) : nat :=
  match xs, ys with
  | x :: xs, y :: ys => (if Nat.eq_dec (first x) a then if Nat.eq_dec (second y) b then 1 else 0 else 0) + joint first second xs ys a b
  | _, _ => 0
  end.
