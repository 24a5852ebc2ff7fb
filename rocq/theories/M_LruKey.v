(** * Cache keys: pyRSD/extern/backports/lru_cache.py:17-35 (_make_key) and 87, 101

    Python values are modelled up to what == , type() and hash see: numbers compare by value
    across int/bool/float, tuples elementwise, frozensets by content, everything else by
    identity. NaN (unequal to itself) and user classes with their own __eq__ are not modelled. *)
From Coq Require Import List Arith Bool ZArith QArith String Ascii.
From Verif Require Import M_Lru.
Import ListNotations.
Set Implicit Arguments.

Inductive pyval :=
| PInt (z : Z) | PBool (b : bool) | PFloat (q : Q) | PStr (s : string) | PNone
| PTuple (l : list pyval) | PType (t : nat) | PFrozen (content : nat) | PObj (id : nat).
(** kwd_mark = (object(),), created once when the module is loaded (line 18) *)
Definition kwd_mark : pyval := PObj 0.

(** type(v), as a number *)
Definition pytype (v : pyval) : nat :=
  match v with PInt _ => 0 | PBool _ => 1 | PFloat _ => 2 | PStr _ => 3 | PNone => 4 | PTuple _ => 5
  | PType _ => 6 | PFrozen _ => 7 | PObj _ => 8 end%nat.
(** fasttypes = {int, str, frozenset, type(None)} (line 19) *)
Definition fasttype (v : pyval) : bool :=
  match v with PInt _ | PStr _ | PFrozen _ | PNone => true | _ => false end.

Definition num (v : pyval) : option Q :=
  match v with PInt z => Some (inject_Z z) | PBool b => Some (inject_Z (if b then 1 else 0)) | PFloat q => Some q | _ => None end.
(** a == b *)
Fixpoint pyeq (a b : pyval) {struct a} : bool :=
  match a, b with
  | PStr s, PStr t => String.eqb s t
  | PNone, PNone => true
  | PType t, PType u => Nat.eqb t u
  | PFrozen t, PFrozen u => Nat.eqb t u
  | PObj t, PObj u => Nat.eqb t u
  | PTuple l, PTuple m =>
      (fix eqs (l m : list pyval) : bool :=
         match l, m with [], [] => true | x :: l', y :: m' => pyeq x y && eqs l' m' | _, _ => false end) l m
  | _, _ => match num a, num b with Some x, Some y => Qeq_bool x y | _, _ => false end
  end.
Fixpoint pyeqs (l m : list pyval) : bool :=
  match l, m with [], [] => true | x :: l', y :: m' => pyeq x y && pyeqs l' m' | _, _ => false end.

(** sorted(kwds.items()): keyword names are distinct, so the comparison never reaches the values *)
Fixpoint kinsert (e : string * pyval) (l : list (string * pyval)) : list (string * pyval) :=
  match l with [] => [e] | e' :: l' => if String.leb (fst e) (fst e') then e :: l else e' :: kinsert e l' end.
Fixpoint ksort (l : list (string * pyval)) : list (string * pyval) :=
  match l with [] => [] | e :: l' => kinsert e (ksort l') end.
(** for item in sorted_items: key += item *)
Fixpoint flat_items (l : list (string * pyval)) : list pyval :=
  match l with [] => [] | (n, v) :: l' => PStr n :: v :: flat_items l' end.

(** What is used as the dictionary key: a bare value, a _HashedSeq, or the args tuple *)
Inductive key := KScalar (v : pyval) | KSeq (l : list pyval) | KArgs (l : list pyval).
Definition is_nil {X} (l : list X) : bool := match l with [] => true | _ => false end.

(** lines 17-35 *)
Definition make_key (typed : bool) (args : list pyval) (kwds : list (string * pyval)) : key :=
  let k0 := args in
  let sorted_items := ksort kwds in
  let k1 := if is_nil kwds then k0 else k0 ++ [kwd_mark] ++ flat_items sorted_items in
  if typed then
    let k2 := k1 ++ map (fun v => PType (pytype v)) args in
    KSeq (if is_nil kwds then k2 else k2 ++ map (fun e => PType (pytype (snd e))) sorted_items)
  else match k1 with
       | [v] => if fasttype v then KScalar v else KSeq k1
       | _ => KSeq k1
       end.
(** line 101: key = make_key(...) if kwds or typed else args *)
Definition bounded_key (typed : bool) (args : list pyval) (kwds : list (string * pyval)) : key :=
  if negb (is_nil kwds) || typed then make_key typed args kwds else KArgs args.

(** dictionary key equality: _HashedSeq is a list, which never equals a tuple or a scalar *)
Definition keyeq (a b : key) : bool :=
  match a, b with
  | KScalar v, KScalar w => pyeq v w
  | KSeq l, KSeq m => pyeqs l m
  | KArgs l, KArgs m => pyeqs l m
  | _, _ => false
  end.

Definition pycall := (list pyval * list (string * pyval))%type.
(** the key used by each branch of the decorator *)
Definition pykey (c : cfg) (typed : bool) (x : pycall) : key :=
  match c with Bounded _ => bounded_key typed (fst x) (snd x) | _ => make_key typed (fst x) (snd x) end.
