(** What the integration of tabulated functions and the grids should do. *)
From Coq Require Import Reals List.
From Coquelicot Require Import Coquelicot.
Import ListNotations.
Local Open Scope R_scope.
(** the straight line through (a, u) and (b, v), on [a, b] *)
Definition straight_on (a b : R) (g : R -> R) : Prop := exists s, forall x, a <= x <= b -> g x = g a + s * (x - a).
(** two derivatives on [a, b], the second bounded by M *)
Definition smooth2 (a b : R) (f : R -> R) (M : R) : Prop :=
  exists f1 f2 : R -> R, forall x, a <= x <= b -> is_derive f x (f1 x) /\ is_derive f1 x (f2 x) /\ Rabs (f2 x) <= M.
(** point-wise combination of two tables *)
Definition lin_comb (a b : R) (u v : list R) : list R := map (fun p => a * fst p + b * snd p) (combine u v).
