(** * Vocabulary for interpolation *)
From Coq Require Import Reals List Arith.
Import ListNotations.
(** affine in each of the n coordinates separately *)
Fixpoint multi_affine (n : nat) (f : list R -> R) : Prop :=
  match n with
  | 0 => True
  | S n' => exists a b, multi_affine n' a /\ multi_affine n' b /\ forall x xs, length xs = n' -> f (x :: xs) = (a xs + x * b xs)%R
  end.
(** strictly increasing sequence of at least two points *)
Definition axis (p : list R) : Prop := 2 <= length p /\ forall i j, i < j -> j < length p -> (nth i p 0 < nth j p 0)%R.
(** the coordinates of the grid node with the given indices *)
Fixpoint node (g : list (list R)) (idx : list nat) : list R := match g, idx with p :: g', i :: idx' => nth i p 0%R :: node g' idx' | _, _ => [] end.
Inductive valid_index : list (list R) -> list nat -> Prop :=
  | vi_nil : valid_index [] []
  | vi_cons : forall p g i idx, i < length p -> valid_index g idx -> valid_index (p :: g) (i :: idx).
(** inside the box spanned by the grid *)
Inductive in_box : list (list R) -> list R -> Prop :=
  | ib_nil : in_box [] []
  | ib_cons : forall p g x xs, (nth 0 p 0 <= x <= nth (length p - 1) p 0)%R -> in_box g xs -> in_box (p :: g) (x :: xs).
(** the node idx is a corner of a grid cell containing the point *)
Inductive corner : list (list R) -> list R -> list nat -> Prop :=
  | co_nil : corner [] [] []
  | co_cons : forall p g x xs c i idx, c + 1 < length p -> (nth c p 0 <= x <= nth (c + 1) p 0)%R -> (i = c \/ i = c + 1) -> corner g xs idx -> corner (p :: g) (x :: xs) (i :: idx).
(** along each axis the chosen node is at least as close to the coordinate as any other node of that axis *)
Inductive closest : list (list R) -> list R -> list nat -> Prop :=
  | cl_nil : closest [] [] []
  | cl_cons : forall p g x xs i idx, i < length p -> (forall k, k < length p -> (Rabs (x - nth i p 0) <= Rabs (x - nth k p 0))%R) -> closest g xs idx -> closest (p :: g) (x :: xs) (i :: idx).
