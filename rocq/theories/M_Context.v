(** * Global AP lock, global call cache, use_spt

    /repo/pyRSD/rsd/tools.py:130-230, /repo/pyRSD/rsd/__init__.py:6-8,
    /repo/pyRSD/rsd/power/dm/power_dm.py:161-178 and 221-248 *)
From Coq Require Import List String Bool Arith.
From Verif Require Import M_Cache.
Import ListNotations.
Open Scope list_scope.

(** ** The AP decorator and its lock, tools.py:165-230 *)
Section AP.
Context {K V : Type}.   (* arguments (k,mu); results *)
Variable remap : K -> K.      (* l.209-213 *)
Variable scale : V -> V.      (* l.219-223 *)

(** The execution of a method body: it returns or raises, or calls another method
    with computed arguments and continues with the value.  [dec]: the callee is
    decorated with alcock_paczynski. *)
Inductive prog :=
| Ret (r : result V)
| Call (dec : bool) (arg : K) (callee : K -> prog) (cont : V -> prog).

(** [lock]: APLock.locked().  l.199: distort only if the lock is free; the
    [with APLock] statement releases it on every exit (l.215-223). *)
Fixpoint exec (p : prog) (lock : bool) : result V * bool :=
  match p with
  | Ret r => (r, lock)
  | Call dec arg callee cont =>
    let '(r, lock') :=
      if dec && negb lock then
        let '(r, _) := exec (callee (remap arg)) true in
        (match r with Ok v => Ok (scale v) | Err e => Err e end, false)
      else exec (callee arg) lock in
    match r with
    | Ok v => exec (cont v) lock'
    | Err e => (Err e, lock')
    end
  end.

(** ** Several threads sharing the one lock of the process.  A call checks
    [APLock.locked()] and acquires in two separate steps. *)
Inductive pc :=
| Idle          (* about to call *)
| Waiting       (* saw the lock free, about to acquire it: [with APLock] *)
| Inside        (* holds the lock, evaluating the remapped call *)
| Undistorted   (* saw the lock taken: evaluates without AP effect *)
| Done (distorted : bool).

Record threads := mkThreads { held : bool; pcs : list pc }.

Definition tstep (st : threads) (i : nat) : option threads :=
  match nth_error (pcs st) i with
  | None | Some (Done _) => None
  | Some p =>
    let put q := firstn i (pcs st) ++ q :: skipn (S i) (pcs st) in
    match p with
    | Idle => Some (mkThreads (held st) (put (if held st then Undistorted else Waiting)))
    | Waiting => if held st then None else Some (mkThreads true (put Inside))
    | Inside => Some (mkThreads false (put (Done true)))
    | Undistorted => Some (mkThreads (held st) (put (Done false)))
    | Done _ => None
    end
  end.

Fixpoint trun (st : threads) (sched : list nat) : option threads :=
  match sched with
  | [] => Some st
  | i :: l => match tstep st i with Some st' => trun st' l | None => None end
  end.
Definition tinit (n : nat) : threads := mkThreads false (repeat Idle n).
End AP.
Arguments prog K V : clear implicits.

(** ** The call cache, tools.py:130-162 and use_cache, power_dm.py:161-178 *)
Section CallCache.
Context {Obj Name Arg Kw Key St V : Type}.
Variable key_eqb : Key -> Key -> bool.
(** get_hash_key(class.function, args): neither the object nor the keywords enter. *)
Variable key : Name -> Arg -> Key.
(** The undecorated function: object, name, arguments, keywords, state of the models. *)
Variable f : Obj -> Name -> Arg -> Kw -> St -> result V.

Record gstate := mkGS { gcache : option (list (Key * V)); model : St }.

Fixpoint clookup (k : Key) (l : list (Key * V)) : option V :=
  match l with
  | [] => None
  | (k', v) :: l' => if key_eqb k k' then Some v else clookup k l'
  end.

(** l.144-160: a call that raises is not stored. *)
Definition ccall (o : Obj) (n : Name) (a : Arg) (w : Kw) (g : gstate) : result V * gstate :=
  match gcache g with
  | None => (f o n a w (model g), g)
  | Some l =>
    match clookup (key n a) l with
    | Some v => (Ok v, g)
    | None =>
      match f o n a w (model g) with
      | Ok v => (Ok v, mkGS (Some ((key n a, v) :: l)) (model g))
      | Err e => (Err e, g)
      end
    end
  end.

(** What can happen inside a block: cached calls and changes of model state; a call
    that raises ends the block unless it is caught ([ctry]). *)
Inductive act :=
| ACall (o : Obj) (n : Name) (a : Arg) (w : Kw)
| ATry (o : Obj) (n : Name) (a : Arg) (w : Kw)
| ASet (s : St)
| ARaise (e : string).

Fixpoint cblock (l : list act) (g : gstate) : list (result V) * option string * gstate :=
  match l with
  | [] => ([], None, g)
  | ACall o n a w :: l' =>
    let '(r, g1) := ccall o n a w g in
    match r with
    | Err e => ([r], Some e, g1)
    | Ok _ => let '(rs, x, g2) := cblock l' g1 in (r :: rs, x, g2)
    end
  | ATry o n a w :: l' =>
    let '(r, g1) := ccall o n a w g in
    let '(rs, x, g2) := cblock l' g1 in (r :: rs, x, g2)
  | ASet s :: l' => cblock l' (mkGS (gcache g) s)
  | ARaise e :: _ => ([], Some e, g)
  end.

(** [with model.use_cache(): ...]: cache_on, block, cache_off in a finally clause. *)
Definition use_cache (l : list act) (g : gstate) : list (result V) * option string * gstate :=
  let '(rs, x, g') := cblock l (mkGS (Some []) (model g)) in
  (rs, x, mkGS None (model g')).
End CallCache.

(** ** use_spt, power_dm.py:221-248 *)
Section Spt.
Context {St A : Type}.
Variable flags : list string.                   (* the use_*_model keywords *)
Variable hasattr : string -> bool.              (* fixed by the class *)
Variable getf : string -> St -> bool.
Variable setf : string -> bool -> St -> St.

Definition spt_set (b : string -> bool) (s : St) : St :=
  fold_left (fun s k => if hasattr k then setf k (b k) s else s) flags s.

(** The block yields a value (assigned by the statements in it) or raises.  The
    bare [except: pass] swallows the exception: the statement completes normally,
    without the block's value. *)
Definition use_spt (block : St -> result A * St) (s : St) : result (option A) * St :=
  let saved k := getf k s in
  let '(r, s1) := block (spt_set (fun _ => false) s) in
  let s2 := spt_set saved s1 in
  match r with
  | Ok x => (Ok (Some x), s2)
  | Err _ => (Ok None, s2)
  end.
End Spt.
