(** * When two Python calls are "the same call" *)
From Coq Require Import List Bool String.
From Verif Require Import M_LruKey.
Import ListNotations.
(** keyword dictionary lookup *)
Fixpoint kwget (n : string) (kw : list (string * pyval)) : option pyval :=
  match kw with [] => None | (m, v) :: kw' => if String.eqb m n then Some v else kwget n kw' end.
Definition opt_rel (R : pyval -> pyval -> Prop) (a b : option pyval) : Prop :=
  match a, b with Some x, Some y => R x y | None, None => True | _, _ => False end.
(** same positional arguments, and under every keyword name the same value, up to R *)
Definition same_call (R : pyval -> pyval -> Prop) (x y : pycall) : Prop :=
  Forall2 R (fst x) (fst y) /\ forall n, opt_rel R (kwget n (snd x)) (kwget n (snd y)).
Definition py_equal (a b : pyval) : Prop := pyeq a b = true.
Definition py_equal_typed (a b : pyval) : Prop := pyeq a b = true /\ pytype a = pytype b.
(** a call a Python program can make: distinct keyword names, and the private marker object of
    the module is not passed as an argument *)
Definition proper_call (x : pycall) : Prop :=
  NoDup (map fst (snd x)) /\ Forall (fun v => v <> kwd_mark) (fst x).
