(** Vocabulary: Legendre polynomials of every order and multipoles; interpolation between neighbours; the top-hat window. *)
From Coq Require Import Reals List ZArith.
From Coquelicot Require Import Coquelicot.
Import ListNotations.
Local Open Scope R_scope.
(** the Legendre polynomials, by Bonnet's recurrence *)
Definition legendre_polynomials (p : nat -> R -> R) : Prop :=
  forall x, p 0%nat x = 1 /\ p 1%nat x = x /\ forall n, (INR n + 2) * p (S (S n)) x = (2 * INR n + 3) * x * p (S n) x - (INR n + 1) * p n x.
(** multipole of order ell of a function of mu *)
Definition multipole_of (p : nat -> R -> R) (ell : nat) (F : R -> R) : R := (2 * INR ell + 1) / 2 * RInt (fun mu => p ell mu * F mu) (-1) 1.
(** the top-hat window in Fourier space *)
Definition top_hat (x : R) : R := if Req_EM_T x 0 then 1 else 3 * (sin x - x * cos x) / x ^ 3.
