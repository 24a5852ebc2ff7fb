(** * Specification vocabulary for running chains *)
From Coq Require Import List Arith.
From Verif Require Import M_Mcmc.
Import ListNotations.

(** the documented times of the convergence test *)
Definition scheduled (n : nat) : Prop :=
  In n [600; 800; 1000; 1200; 1400] \/ (1500 <= n /\ exists m, n = 100 * m).
(** every stop that was not caused by a message had the reason r *)
Definition single_cause (r : reason) (causes : list reason) : Prop := Forall (eq r) causes.
