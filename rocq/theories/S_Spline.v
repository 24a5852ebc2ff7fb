(** What the splines of the compiled library should do, in terms of the tables given and the values returned. *)
From Coq Require Import Reals List.
From Coquelicot Require Import Coquelicot.
Import ListNotations.
Local Open Scope R_scope.
(** abscissas in strictly increasing order *)
Definition increasing (xs : list R) : Prop := forall i, (S i < length xs)%nat -> nth i xs 0 < nth (S i) xs 0.
Definition first_x (xs : list R) : R := nth 0 xs 0.
Definition last_x (xs : list R) : R := nth (length xs - 1) xs 0.
(** A C2 function on the open interval (a, b), with first derivative d *)
Definition C2_on (a b : R) (f d : R -> R) : Prop :=
  exists d2 : R -> R, forall x : R, a < x < b -> is_derive f x (d x) /\ is_derive d x (d2 x) /\ continuous d2 x.
