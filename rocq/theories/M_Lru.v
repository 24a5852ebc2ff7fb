(** * Model of pyRSD/extern/backports/lru_cache.py

    The linked list is modelled as a heap of links (prev, next, key, result) addressed by
    naturals, exactly as the Python lists [PREV, NEXT, KEY, RESULT]; the dictionary is an
    association list looked up with the key equality [keq] (Python == together with hash).
    Each 'with lock:' block is one atomic step, so a bounded call is two steps (look up / store)
    between which other threads may run; exceptions of the wrapped function are [None]. *)
From Coq Require Import List Arith Bool ZArith.
Import ListNotations.
Set Implicit Arguments.

Section Lru.
Variables (A K V : Type).
Variable keq : K -> K -> bool.

(** lru_cache.py:73 field names PREV, NEXT, KEY, RESULT of one link (a 4-element list). *)
Record link := mkLink { PREV : nat; NEXT : nat; KEY : option K; RESULT : option V }.
Definition heap := nat -> link.
Definition upd (h : heap) (p : nat) (l : link) : heap := fun q => if Nat.eqb q p then l else h q.
(** item assignments  l[PREV] = x  etc. *)
Definition set_prev (h : heap) p x := upd h p (mkLink x (NEXT (h p)) (KEY (h p)) (RESULT (h p))).
Definition set_next (h : heap) p x := upd h p (mkLink (PREV (h p)) x (KEY (h p)) (RESULT (h p))).
Definition set_kr (h : heap) p k r := upd h p (mkLink (PREV (h p)) (NEXT (h p)) k r).

(** Python dict keyed with [keq] (dict.get, del, __setitem__; a key that is already present
    keeps its old key object). *)
Fixpoint dget (X : Type) (d : list (K * X)) (k : K) : option X :=
  match d with [] => None | (k', x) :: d' => if keq k' k then Some x else dget d' k end.
Fixpoint ddel (X : Type) (d : list (K * X)) (k : K) : list (K * X) :=
  match d with [] => [] | (k', x) :: d' => if keq k' k then d' else (k', x) :: ddel d' k end.
Fixpoint dset (X : Type) (d : list (K * X)) (k : K) (x : X) : list (K * X) :=
  match d with [] => [(k, x)] | (k', x') :: d' => if keq k' k then (k', x) :: d' else (k', x') :: dset d' k x end.

(** lru_cache.py:64-73 the closure state: cache, stats, nonlocal_root, and the heap of links
    ([fresh] = next unused address). *)
Record state := mkState { hp : heap; fresh : nat; root : nat; cache : list (K * nat); HITS : nat; MISSES : nat }.
(** root[:] = [root, root, None, None]  (lru_cache.py:70-71) *)
Definition init : state :=
  mkState (fun _ => mkLink 0 0 None None) 1 0 [] 0 0.

(** lru_cache.py:102-117: first locked block; returns the result on a hit. *)
Definition lookup (s : state) (key : K) : option (option V) * state :=
  match dget (cache s) key with
  | None => (None, s)
  | Some lk =>
    let h := hp s in
    let link_prev := PREV (h lk) in
    let link_next := NEXT (h lk) in
    let result := RESULT (h lk) in
    let h := set_next h link_prev link_next in
    let h := set_prev h link_next link_prev in
    let last := PREV (h (root s)) in
    let h := set_next h last lk in
    let h := set_prev h (root s) lk in
    let h := set_prev h lk last in
    let h := set_next h lk (root s) in
    (Some result, mkState h (fresh s) (root s) (cache s) (S (HITS s)) (MISSES s))
  end.

(** lru_cache.py:119-147: second locked block.  The boolean is [false] when [del cache[oldkey]]
    raises KeyError (the state is then left as it is at that point; this needs maxsize < 0). *)
Definition store (maxsize : Z) (s : state) (key : K) (result : V) : bool * state :=
  match dget (cache s) key with
  | Some _ => (true, mkState (hp s) (fresh s) (root s) (cache s) (HITS s) (S (MISSES s)))
  | None =>
    if Z.leb maxsize (Z.of_nat (length (cache s))) then
      let oldroot := root s in
      let h := set_kr (hp s) oldroot (Some key) (Some result) in
      let newroot := NEXT (h oldroot) in
      let oldkey := KEY (h newroot) in
      let h := set_kr h newroot None None in
      let found := match oldkey with Some k => match dget (cache s) k with Some _ => Some k | None => None end
                   | None => None end in
      match found with
      | None => (false, mkState h (fresh s) newroot (cache s) (HITS s) (MISSES s))
      | Some k => (true, mkState h (fresh s) newroot (dset (ddel (cache s) k) key oldroot) (HITS s) (S (MISSES s)))
      end
    else
      let h := hp s in
      let last := PREV (h (root s)) in
      let lk := fresh s in
      let h := upd h lk (mkLink last (root s) (Some key) (Some result)) in
      let h := set_next h last lk in
      let h := set_prev h (root s) lk in
      (true, mkState h (S (fresh s)) (root s) (dset (cache s) key lk) (HITS s) (S (MISSES s)))
  end.

(** lru_cache.py:156-162 cache_clear *)
Definition clear (s : state) : state :=
  mkState (upd (hp s) (root s) (mkLink (root s) (root s) None None)) (fresh s) (root s) [] 0 0.

(** lru_cache.py:151-154 cache_info: (hits, misses, currsize) *)
Definition info (s : state) : nat * nat * nat := (HITS s, MISSES s, length (cache s)).

Variable mk : A -> K.            (* make_key / args, lru_cache.py:101 *)
Variable f : A -> option V.      (* user_function; None = it raised *)

(** What a caller sees: the value, the exception of the wrapped function, or a KeyError raised
    by the cache itself. *)
Inductive outcome := Ret (v : V) | Raised | KeyErr.
(** The boolean records (ghost) whether the wrapped function was invoked. *)
Definition answer := (outcome * bool)%type.

(** One complete call with no other thread in between (lru_cache.py:99-148). A link always
    carries a result; the [None] case of RESULT is unreachable (proved). *)
Definition call (maxsize : Z) (s : state) (a : A) : answer * state :=
  match lookup s (mk a) with
  | (Some (Some v), s') => ((Ret v, false), s')
  | (Some None, s') => ((KeyErr, false), s')
  | (None, _) =>
    match f a with
    | None => ((Raised, true), s)
    | Some v => match store maxsize s (mk a) v with
                | (true, s') => ((Ret v, true), s')
                | (false, s') => ((KeyErr, true), s')
                end
    end
  end.

(** lru_cache.py:75-81 maxsize == 0 and 83-95 maxsize is None *)
Record ustate := mkU { ucache : list (K * V); UH : nat; UM : nat }.
Definition uinit : ustate := mkU [] 0 0.
Definition call0 (s : ustate) (a : A) : answer * ustate :=
  match f a with
  | None => ((Raised, true), s)
  | Some v => ((Ret v, true), mkU (ucache s) (UH s) (S (UM s)))
  end.
Definition callN (s : ustate) (a : A) : answer * ustate :=
  match dget (ucache s) (mk a) with
  | Some v => ((Ret v, false), mkU (ucache s) (S (UH s)) (UM s))
  | None => match f a with
            | None => ((Raised, true), s)
            | Some v => ((Ret v, true), mkU (dset (ucache s) (mk a) v) (UH s) (S (UM s)))
            end
  end.
Definition uclear (s : ustate) : ustate := mkU [] 0 0.

(** Histories of API calls. *)
Inductive op := Call (a : A) | Clear.
(** All three branches seen as one machine (lru_cache.py:75, 83, 97). *)
Inductive cfg := NoCache | Unbounded | Bounded (maxsize : Z).
Inductive mstate := MB (s : state) | MU (s : ustate).
Definition minit (c : cfg) : mstate := match c with Bounded _ => MB init | _ => MU uinit end.
Definition mcall (c : cfg) (s : mstate) (a : A) : answer * mstate :=
  match c, s with
  | Bounded n, MB s => let '(r, s') := call n s a in (r, MB s')
  | Unbounded, MU s => let '(r, s') := callN s a in (r, MU s')
  | _, MU s => let '(r, s') := call0 s a in (r, MU s')
  | _, MB s => ((KeyErr, false), MB s)
  end.
Definition mclear (s : mstate) : mstate := match s with MB s => MB (clear s) | MU s => MU (uclear s) end.
(** lru_cache.py:150-153: (hits, misses, currsize) *)
Definition minfo (s : mstate) : nat * nat * nat :=
  match s with MB s => info s | MU s => (UH s, UM s, length (ucache s)) end.
Fixpoint mrun (c : cfg) (s : mstate) (h : list op) : list answer * mstate :=
  match h with
  | [] => ([], s)
  | Call a :: h' => let '(r, s1) := mcall c s a in let '(rs, s2) := mrun c s1 h' in (r :: rs, s2)
  | Clear :: h' => mrun c (mclear s) h'
  end.

(** Concurrent (or re-entrant) use of the bounded cache: a scheduler interleaves the locked
    blocks of many threads.  [Enter t a]: thread t starts a call and does its first block;
    [Leave t]: the wrapped function of thread t has finished and the second block runs.
    A re-entrant (recursive) call is a fresh thread number used in between. *)
Inductive ev := Enter (t : nat) (a : A) | Leave (t : nat) | ClearEv.
Record conc := mkConc { cst : state; pending : nat -> option A }.
Definition pset (p : nat -> option A) t x : nat -> option A := fun q => if Nat.eqb q t then x else p q.
(** [None]: the event is not possible (thread busy / idle). Output: a finished call. *)
Definition cstep (maxsize : Z) (c : conc) (e : ev) : option (conc * option (A * outcome)) :=
  match e with
  | Enter t a =>
    match pending c t with
    | Some _ => None
    | None => match lookup (cst c) (mk a) with
              | (Some (Some v), s') => Some (mkConc s' (pending c), Some (a, Ret v))
              | (Some None, s') => Some (mkConc s' (pending c), Some (a, KeyErr))
              | (None, s') => Some (mkConc s' (pset (pending c) t (Some a)), None)
              end
    end
  | Leave t =>
    match pending c t with
    | None => None
    | Some a => match f a with
                | None => Some (mkConc (cst c) (pset (pending c) t None), Some (a, Raised))
                | Some v =>
                  let '(ok, s') := store maxsize (cst c) (mk a) v in
                  Some (mkConc s' (pset (pending c) t None), Some (a, if ok then Ret v else KeyErr))
                end
    end
  | ClearEv => Some (mkConc (clear (cst c)) (pending c), None)
  end.
Fixpoint crun (maxsize : Z) (c : conc) (es : list ev) : option (conc * list (A * outcome)) :=
  match es with
  | [] => Some (c, [])
  | e :: es' => match cstep maxsize c e with
                | None => None
                | Some (c', o) => match crun maxsize c' es' with
                                  | None => None
                                  | Some (c'', os) => Some (c'', match o with Some x => x :: os | None => os end)
                                  end
                end
  end.
Definition cinit : conc := mkConc init (fun _ => None).
End Lru.
Arguments MB {K V}. Arguments MU {K V}. Arguments Raised {V}. Arguments KeyErr {V}. Arguments Clear {A}. Arguments ClearEv {A}.
Arguments init {K V}. Arguments uinit {K V}. Arguments minit {K V}. Arguments cinit {A K V}.
Arguments Leave {A}.

(** lru_cache.py:80, 90, 94: [stats[X] += 1] outside any lock (maxsize 0 and None) is a load
    followed by a store; other threads may run in between. *)
Inductive cev := CLoad (t : nat) | CStore (t : nat).
Definition cnt_step (s : nat * (nat -> nat)) (e : cev) : nat * (nat -> nat) :=
  match e with
  | CLoad t => (fst s, fun q => if Nat.eqb q t then fst s else snd s q)
  | CStore t => (S (snd s t), snd s)
  end.
Definition cnt_run (es : list cev) : nat := fst (fold_left cnt_step es (0, fun _ => 0)).
