(** * Parameter values: lmfit-style symbol table, constraints and bounds

    /repo/pyRSD/rsdfit/parameters/parameter.py:163-203 (_getval), 265-289 (value setter),
    parameterset.py:19-30 (SmartSymTable), 353-377 (update_values), 388-393 (to_dict).
    A constraint expression is a function of the values of the symbols in it; every
    symbol is looked up once, left to right (a repeated symbol is looked up again in the
    code, with the same result); symbols that are not parameters belong to the function.
    [clamp n] is the min/max clipping of :192-197. *)
From Coq Require Import List Arith Bool.
From Verif Require Import M_Prep.
Import ListNotations.

Record vst (V : Type) := mkV { val : nat -> V; sym : nat -> option V }.
Arguments mkV {V}. Arguments val {V}. Arguments sym {V}.

Section Val.
Context {V : Type}.
Variable expr : nat -> option (list nat).
Variable vary : nat -> bool.
Variable fexp : nat -> list V -> V.
Variable clamp : nat -> V -> V.
Variable kids : nat -> nat -> bool.   (* children after prepare_params *)

(** value setter, parameter.py:265-289: store, put into the symbol table, drop the children *)
Definition setv (st : vst V) (n : nat) (v : V) : vst V :=
  mkV (upd (val st) n v) (fun m => if kids n m then None else upd (sym st) n (Some v) m).

(** evaluation of the symbols of an expression: symbol table, else
    SmartSymTable.__missing__ -> params[key]._getval() *)
Fixpoint lookups (getv : vst V -> nat -> option (V * vst V)) (st : vst V) (l : list nat) : option (list V * vst V) :=
  match l with
  | [] => Some ([], st)
  | d :: l =>
    match (match sym st d with Some x => Some (x, st) | None => getv st d end) with
    | None => None
    | Some (x, st) => match lookups getv st l with Some (xs, st) => Some (x :: xs, st) | None => None end
    end
  end.
(** _getval; fuel bounds the recursion depth ([None]: RecursionError) *)
Fixpoint getval (fuel : nat) (st : vst V) (n : nat) : option (V * vst V) :=
  match fuel with
  | O => None
  | S fuel =>
    match expr n with
    | None => if vary n then let v := clamp n (val st n) in Some (v, setv st n v) else Some (val st n, st)
    | Some l =>
      match lookups (getval fuel) st l with
      | None => None
      | Some (vs, st) =>
        let st := setv st n (fexp n vs) in
        let v := clamp n (val st n) in
        Some (v, setv st n v)
      end
    end
  end.

(** User operations: assign an unconstrained parameter, read any parameter. *)
Inductive vop := VSet (n : nat) (v : V) | VGet (n : nat).
Definition vstep (fuel : nat) (st : vst V) (o : vop) : option (vst V) :=
  match o with
  | VSet n v => Some (setv st n v)
  | VGet n => match getval fuel st n with Some (_, st) => Some st | None => None end
  end.
Fixpoint vrun (fuel : nat) (st : vst V) (ops : list vop) : option (vst V) :=
  match ops with [] => Some st | o :: ops => match vstep fuel st o with Some st => vrun fuel st ops | None => None end end.
End Val.

(** ** Gradient: pyRSD/rsd/power/gradient.py:27-76, compute, at one (k,mu)
    [reg n]: the registered derivative's value (None: not registered);
    [valid n]: n in valid_model_params or free_names; [cd c n]: constraint_derivative(c,n). *)
From Coq Require Import Reals.
Section Grad.
Variable names : list nat.
Variable kids : nat -> nat -> bool.
Variable valid : nat -> bool.
Variable reg : nat -> option R.
Variable cd : nat -> nat -> R.
Local Open Scope R_scope.

Fixpoint compute (fuel n : nat) : option R :=
  match fuel with
  | O => None
  | S fuel =>
    if negb (valid n) then Some 0
    else match reg n with
         | None => None   (* ValueError: no registered subclass *)
         | Some d =>
           (fix go (cs : list nat) (acc : R) : option R :=
              match cs with
              | [] => Some acc
              | c :: cs =>
                match compute fuel c with
                | None => None
                | Some a => if Req_EM_T a 0 then go cs acc else go cs (acc + a * cd c n)
                end
              end) (filter (kids n) names) d
         end
  end.
End Grad.
