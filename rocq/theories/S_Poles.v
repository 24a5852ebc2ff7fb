(** * Vocabulary for the (k, mu) evaluation and multipole properties (no algorithms of the model) *)
From Coq Require Import Reals List Arith.
From Coquelicot Require Import Coquelicot.
Import ListNotations.
Local Open Scope R_scope.

(** the Legendre polynomials of order 0, 2, 4 and 6 *)
Definition P0 (x : R) : R := 1.
Definition P2 (x : R) : R := (3 * x ^ 2 - 1) / 2.
Definition P4 (x : R) : R := (35 * x ^ 4 - 30 * x ^ 2 + 3) / 8.
Definition P6 (x : R) : R := (231 * x ^ 6 - 315 * x ^ 4 + 105 * x ^ 2 - 5) / 16.
Inductive legendre_of : nat -> (R -> R) -> Prop :=
  leg0 : legendre_of 0 P0 | leg2 : legendre_of 2 P2 | leg4 : legendre_of 4 P4 | leg6 : legendre_of 6 P6.
(** the multipole of order ell of a spectrum P(mu) symmetric in mu: (2 ell + 1)/2 times the integral over [-1, 1],
    that is (2 ell + 1) times the integral over [0, 1] *)
Definition multipole (ell : nat) (p P : R -> R) : R := RInt (fun mu => (2 * INR ell + 1) * p mu * P mu) 0 1.
(** g has four derivatives on [0, 1], the fourth bounded by M *)
Definition smooth4 (g : R -> R) (M : R) : Prop :=
  exists g1 g2 g3 g4 : R -> R, forall x, 0 <= x <= 1 ->
    is_derive g x (g1 x) /\ is_derive g1 x (g2 x) /\ is_derive g2 x (g3 x) /\ is_derive g3 x (g4 x) /\ Rabs (g4 x) <= M.
(** the entries of a list of values, one for each wavenumber *)
Definition for_each {A} (ks : list R) (l : list A) (P : R -> A -> Prop) : Prop :=
  length l = length ks /\ forall i k v, nth_error ks i = Some k -> nth_error l i = Some v -> P k v.
(** strictly increasing abscissae *)
Fixpoint incr (l : list R) : Prop := match l with x :: ((y :: _) as t) => x < y /\ incr t | _ => True end.
