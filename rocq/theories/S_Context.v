(** * Specification side of M_Context: what happens without the decorator / cache. *)
From Coq Require Import List String Bool Arith.
From Verif Require Import M_Cache M_Context.
Import ListNotations.
Open Scope list_scope.

Section AP.
Context {K V : Type}.
(** The same program without the decorator. *)
Fixpoint plainp (p : prog K V) : result V :=
  match p with
  | Ret r => r
  | Call _ arg callee cont =>
    match plainp (callee arg) with Ok v => plainp (cont v) | Err e => Err e end
  end.

End AP.

(** Calls made one after the other are all distorted. *)
Definition seq_sched (n : nat) : list nat := flat_map (fun i => [i; i; i]) (seq 0 n).


Section CallCache.
Context {Obj Name Arg Kw Key St V : Type}.
Variable key : Name -> Arg -> Key.
Variable f : Obj -> Name -> Arg -> Kw -> St -> result V.

(** The uncached block. *)
Fixpoint ublock (l : list (@act Obj Name Arg Kw St)) (s : St) : list (result V) * option string * St :=
  match l with
  | [] => ([], None, s)
  | ACall o n a w :: l' =>
    match f o n a w s with
    | Err e => ([Err e], Some e, s)
    | Ok v => let '(rs, x, s2) := ublock l' s in (Ok v :: rs, x, s2)
    end
  | ATry o n a w :: l' => let '(rs, x, s2) := ublock l' s in (f o n a w s :: rs, x, s2)
  | ASet s' :: l' => ublock l' s'
  | ARaise e :: _ => ([], Some e, s)
  end.

(** Calls of the block: same object, no keywords in play; states of the block. *)
Definition calls_of (l : list (@act Obj Name Arg Kw St)) : list (Obj * Name * Arg * Kw) :=
  flat_map (fun x => match x with ACall o n a w | ATry o n a w => [(o, n, a, w)] | _ => [] end) l.
Definition states_of (s : St) (l : list (@act Obj Name Arg Kw St)) : list St :=
  s :: flat_map (fun x => match x with ASet s' => [s'] | _ => [] end) l.

(** Calls with equal keys have equal results in all states of the block. *)
Definition compatible (C : list (Obj * Name * Arg * Kw)) (S : list St) : Prop :=
  forall o n a w o' n' a' w' s s', In (o, n, a, w) C -> In (o', n', a', w') C -> In s S -> In s' S ->
  key n a = key n' a' -> f o n a w s = f o' n' a' w' s'.

End CallCache.
