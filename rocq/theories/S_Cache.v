(** * Specification of the attribute cache, independent of the cache itself. *)
From Coq Require Import List String Bool Arith.
From Verif Require Import M_Cache.
Import ListNotations.

Section Spec.
Context {V : Type}.
Variable sch : schema V.
Variable body : string -> comp V.
Variable validate : string -> V -> result V.

(** Evaluate a body given the value of each attribute. *)
Fixpoint evalc (g : string -> option (result V)) (c : comp V) : option (result V) :=
  match c with
  | Ret r => Some r
  | Read a k => match g a with
                | Some (Ok v) => evalc g (k v)
                | Some (Err e) => Some (Err e)
                | None => None
                end
  end.

(** The value of attribute [a] recomputed from scratch from the parameter values
    [ps], without any cache ([fuel] bounds the recursion depth). *)
Fixpoint fresh (fuel : nat) (ps : string -> option V) (a : string) : option (result V) :=
  match fuel with
  | O => None
  | S n =>
    match sch a with
    | KParam d =>
      match ps a, d with
      | Some v, _ => Some (Ok v)
      | None, DNone => Some (Err "ValueError: required parameter has not yet been set")
      | None, DAttr b => fresh n ps b
      | None, DVal v => Some (validate a v)
      end
    | KProp _ _ => evalc (fresh n ps) (body a)
    | KOther => Some (Err "AttributeError")
    end
  end.

(** The current parameter values after a history: the last accepted assignment. *)
Fixpoint params_after (ps : string -> option V) (l : list (op V)) : string -> option V :=
  match l with
  | [] => ps
  | OSet p v :: l' =>
    match sch p, validate p v with
    | KParam _, Ok w => params_after (upd ps p (Some w)) l'
    | _, _ => params_after ps l'
    end
  | _ :: l' => params_after ps l'
  end.

(** Histories made of assignments to parameters outside [frozen], reads, and
    deletions of computed attributes. *)
Definition plain (frozen : list string) (o : op V) : bool :=
  match o with
  | OSet p _ => negb (mem p frozen)
  | OGet _ => true
  | ODel a => match sch a with KParam _ => false | _ => true end
  | _ => false
  end.

(** [may_read c b]: some execution path of the body [c] reads attribute [b]. *)
Inductive may_read : comp V -> string -> Prop :=
| MR_here : forall b k, may_read (Read b k) b
| MR_later : forall a k v b, may_read (k v) b -> may_read (Read a k) b.

(** [depends a b]: evaluating attribute [a] may need attribute [b], directly,
    through the default of a parameter, or through other attributes. *)
Inductive depends : string -> string -> Prop :=
| D_read : forall a it ps b, sch a = KProp it ps -> may_read (body a) b -> depends a b
| D_alias : forall a b, sch a = KParam (DAttr b) -> depends a b
| D_trans : forall a b c, depends a b -> depends b c -> depends a c.

(** [declared a p]: [p] is named in the decorator of [a], or in the decorator of one
    of the computed attributes named there, and so on. *)
Inductive declared : string -> string -> Prop :=
| DC_parent : forall a it ps p, sch a = KProp it ps -> In p ps -> declared a p
| DC_grand : forall a it ps b p, sch a = KProp it ps -> In b ps -> declared b p -> declared a p.

(** The class statement succeeds for attribute [a]: its declared parents exist and
    are not cyclic (no ValueError or RecursionError while the class is created). *)
Definition creatable (ifuel : nat) (a : string) : Prop := ancestors ifuel sch a <> None.

(** The declaration discipline: the parents declared for a computed attribute
    resolve, and every parameter the attribute can depend on is declared, directly
    or through declared parents -- or is in the list [frozen] of parameters that
    are not to be changed. *)
Definition disciplined (frozen : list string) (ifuel : nat) : Prop :=
  forall a it ps, sch a = KProp it ps ->
  creatable ifuel a /\
  forall p d, depends a p -> sch p = KParam d -> declared a p \/ In p frozen.

Variable obj_eq : V -> V -> bool.
Variable extra : string -> string -> bool.
Variable F : nat.
(** An operation is quiet for [a] if it is a read, assigns a non-ancestor, assigns
    an ancestor a value equal to the one it has, is rejected, or deletes a computed
    attribute that is neither [a] nor an ancestor of it. *)
Definition quiet (a : string) (o : op V) (st : state V) : Prop :=
  match o with
  | OGet _ => True
  | OSet p v => (~ declared a p /\ extra p a = false) \/
                (exists w old, validate p v = Ok w /\ vals st p = Some old /\ obj_eq w old = true) \/
                (exists e, validate p v = Err e) \/ (forall d, sch p <> KParam d)
  | ODel b => match sch b with KProp false _ => b <> a /\ ~ declared a b /\ extra b a = false | _ => True end
  | _ => False
  end.

Fixpoint quiet_run (fuel : nat) (a : string) (l : list (op V)) (st : state V) : Prop :=
  match l with
  | [] => True
  | o :: l' => quiet a o st /\ quiet_run fuel a l' (step sch body validate obj_eq extra fuel F o st)
  end.

End Spec.
