(** * Derivative of one parameter with respect to another

    /repo/pyRSD/rsdfit/parameters/parameterset.py:521-541 (the cases of ParameterSet.constraint_derivative) around the computation of M_ConDeriv.
    [one], [inv]: 1.0 and **(-1); a division by zero (ZeroDivisionError of a float, inf of a numpy float) is what [inv] makes of it. *)
From Coq Require Import List Arith Bool.
From Verif Require Import M_Prep M_ParamVal M_ConDeriv.
Import ListNotations.

(** [Failed]: RecursionError, or an error of autograd *)
Inductive dres (V : Type) := Derivative (d : V) (st : vst V) | ValueError | Failed.
Arguments Derivative {V}. Arguments ValueError {V}. Arguments Failed {V}.
(** list.index *)
Fixpoint position (x : nat) (l : list nat) : nat := match l with [] => 0 | y :: l => if Nat.eqb x y then 0 else S (position x l) end.

Section All.
Context {V : Type}.
Variable names : list nat.
Variable expr : nat -> option (list nat).
Variable vary : nat -> bool.
Variable fexp : nat -> list V -> V.
Variable clamp : nat -> V -> V.
Variable kids : nat -> nat -> bool.
Variable free order : list nat.
Variable grad : (list V -> option V) -> nat -> list V -> option V.
Variable one : V.
Variable inv : V -> V.

(** :535-562 *)
Definition direct (fuel : nat) (name wrt : nat) (theta : option (list V)) (st : vst V) : dres V :=
  if negb (mem wrt free) then ValueError
  else if match expr name with None => true | Some _ => false end then ValueError
  else match constraint_derivative expr vary fexp clamp kids fuel free order grad name (position wrt free) theta st with
       | Some (d, st) => Derivative d st
       | None => Failed
       end.
(** :521-533; the recursive call has a free wrt and a name that is not free, so that it does not call itself again *)
Definition derivative (fuel : nat) (name wrt : nat) (theta : option (list V)) (st : vst V) : dres V :=
  if Nat.eqb name wrt then Derivative one st
  else if negb (mem name names) then ValueError
  else if negb (mem wrt names) then ValueError
  else if negb (mem wrt free) && mem name free then
         match direct fuel wrt name theta st with Derivative d st => Derivative (inv d) st | e => e end
  else direct fuel name wrt theta st.
End All.
