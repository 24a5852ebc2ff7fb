(** Specification vocabulary for C189-C194, independent of how the run works. *)
From Coq Require Import String Reals.
From Coq Require Import List.
From Verif Require Import M_Run.
Import ListNotations.

(** some file of the folder is a complete result whose iterations begin with those of [c] *)
Definition preserved (c : list nat) (f : fs) : Prop := exists n new, lookup n f = Some (Full (c ++ new)).
(** chain i has performed k actions in the schedule *)
Definition actions (i : nat) (schedule : list nat) : nat := count_occ Nat.eq_dec schedule i.
Definition finished (p : pc) : Prop := exists out raised log, p = Done out raised log.
Definition quiet (j : job) : Prop := j_name_ok j = true /\ j_save_ok j = true /\ j_summary_ok j = true.
(** the log-probability a result file stands for: the largest of the chain, or minus the minimised objective *)
Definition stands_for (x : npz) (v : R) : Prop := match x with Emcee l _ => v = l | Lbfgs F _ => (v = - F)%R | Unreadable => False end.
Definition largest_score (n : string) (l : list (string * npz)) : Prop :=
  exists x v, In (n, x) l /\ stands_for x v /\ forall m y w, In (m, y) l -> stands_for y w -> (w <= v)%R.
