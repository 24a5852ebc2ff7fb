(** * Derivative of a constraint

    /repo/pyRSD/rsdfit/parameters/parameterset.py:495-564 (ParameterSet.constraint_derivative), on the parameter values of M_ParamVal, with
    lmfit.Parameters.update_constraints (lmfit 0.9.7: the constrained parameters in the arbitrary order of a set, each after the ones its expression
    names).  [None]: RecursionError.  Floats are reals for autograd.grad, which is an oracle: [grad] applied to a function, the number of the argument and
    the arguments.  Functions of traced arguments are taken to give the values of their numbers; errors of unknown names, and the import of autograd, are
    not modelled. *)
From Coq Require Import List Arith Bool.
From Verif Require Import M_Prep M_ParamVal.
Import ListNotations.

Section ConDeriv.
Context {V : Type}.
Variable expr : nat -> option (list nat).
Variable vary : nat -> bool.
Variable fexp : nat -> list V -> V.
Variable clamp : nat -> V -> V.
Variable kids : nat -> nat -> bool.

(** parameterset.py:552-553: self._asteval.symtable[free_names[i]] = arg; the children are not dropped *)
Definition put (st : vst V) (n : nat) (v : V) : vst V := mkV (val st) (upd (sym st) n (Some v)).
Fixpoint put_all (st : vst V) (ns : list nat) (vs : list V) : vst V :=
  match ns, vs with n :: ns, v :: vs => put_all (put st n v) ns vs | _, _ => st end.
(** lmfit's _update_param; [pend]: updated_tracker *)
Fixpoint update_param (fuel : nat) (ps : (nat -> bool) * vst V) (n : nat) : option ((nat -> bool) * vst V) :=
  match fuel with
  | O => None
  | S fuel =>
    if negb (fst ps n) then Some ps
    else match (fix deps (ps : (nat -> bool) * vst V) (l : list nat) : option ((nat -> bool) * vst V) :=
                  match l with [] => Some ps | d :: l => match update_param fuel ps d with None => None | Some ps => deps ps l end end)
                 ps (match expr n with Some l => l | None => [] end) with
         | None => None
         | Some (pend, st) => match getval expr vary fexp clamp kids fuel st n with
                              | None => None
                              | Some (v, st) => Some (fun m => if Nat.eqb m n then false else pend m, put st n v)
                              end
         end
  end.
(** for name in requires_update *)
Fixpoint update_each (fuel : nat) (ps : (nat -> bool) * vst V) (ns : list nat) : option ((nat -> bool) * vst V) :=
  match ns with [] => Some ps | n :: ns => match update_param fuel ps n with None => None | Some ps => update_each fuel ps ns end end.
(** parameterset.py:549-556; [order]: the constrained parameters in the order of the set *)
Definition obj (fuel : nat) (free order : list nat) (name : nat) (st : vst V) (args : list V) : option (V * vst V) :=
  match update_each fuel (fun n => match expr n with Some _ => true | None => false end, put_all st free args) order with
  | None => None
  | Some (_, st) => getval expr vary fexp clamp kids fuel st name
  end.
(** :545-547, free_values: the values of the free parameters *)
Fixpoint values (fuel : nat) (st : vst V) (ns : list nat) : option (list V * vst V) :=
  match ns with
  | [] => Some ([], st)
  | n :: ns => match getval expr vary fexp clamp kids fuel st n with
               | None => None
               | Some (v, st) => match values fuel st ns with None => None | Some (vs, st) => Some (v :: vs, st) end
               end
  end.
(** :561-562 *)
Fixpoint restore (st : vst V) (ns : list nat) (vs : list V) : vst V :=
  match ns, vs with n :: ns, v :: vs => restore (setv kids st n v) ns vs | _, _ => st end.
(** :543-564 for a constrained [name] and a free parameter number i; [grad] autograd.grad(obj, argnum=i) at theta *)
Definition constraint_derivative (fuel : nat) (free order : list nat) (grad : (list V -> option V) -> nat -> list V -> option V)
           (name i : nat) (theta : option (list V)) (st : vst V) : option (V * vst V) :=
  match values fuel st free with
  | None => None
  | Some (now, st) =>
    let theta := match theta with Some t => t | None => now end in
    match grad (fun args => option_map fst (obj fuel free order name st args)) i theta, obj fuel free order name st theta with
    | Some d, Some (_, st) => Some (d, restore st free now)
    | _, _ => None
    end
  end.
End ConDeriv.
