(** * Model of the attribute cache: /repo/pyRSD/rsd/_cache.py

    Objects of a class derived from [Cache] have parameters (set by the user) and
    computed attributes ([cached_property] / [interpolated_function]) that are
    evaluated on demand and memoised in [obj._cache].  The value type, the
    validation functions and the bodies of the computed attributes are arguments
    of the model. *)
From Coq Require Import List String Bool Arith QArith Qabs.
Import ListNotations.
Open Scope string_scope.
Open Scope list_scope.

(** Python exceptions are values.  [RecursionError] (out of fuel) is separate:
    it is the [None] of the evaluation functions below. *)
Inductive result (V : Type) : Type :=
| Ok  : V -> result V
| Err : string -> result V.
Arguments Ok {V} _.
Arguments Err {V} _.

(** A pure attribute body: reads attributes of [self] one after another (which
    ones may depend on the values read so far) and then returns or raises.
    Models the decorated functions [f(self)] of _cache.py:266-307 (cached_property)
    and 344-389 (interpolated_function, whose stored object is the spline). *)
Inductive comp (V : Type) : Type :=
| Ret  : result V -> comp V
| Read : string -> (V -> comp V) -> comp V.
Arguments Ret {V} _.
Arguments Read {V} _ _.

(** Default of a parameter, _cache.py:242-251: none, the name of another
    attribute, or a literal (passed through the validation function). *)
Inductive dflt (V : Type) : Type :=
| DNone : dflt V
| DAttr : string -> dflt V
| DVal  : V -> dflt V.
Arguments DNone {V}.
Arguments DAttr {V} _.
Arguments DVal {V} _.

(** Class-level description, _cache.py:94-183 (CacheSchema): for every attribute
    name, whether it is a ParameterProperty, a CachedProperty with its declared
    parents [_parents], or something else. *)
Inductive kind (V : Type) : Type :=
| KParam : dflt V -> kind V
| KProp  : bool -> list string -> kind V   (* true: interpolated_function; declared parents *)
| KOther : kind V.
Arguments KParam {V} _.
Arguments KProp {V} _ _.
Arguments KOther {V}.

Definition schema (V : Type) := string -> kind V.

Definition upd {A} (m : string -> option A) (k : string) (v : option A) : string -> option A :=
  fun x => if String.eqb x k then v else m x.

Section Cache.
Context {V : Type}.

(** ** Inversion of the cache map, _cache.py:149-183

    [invert fuel sch deps] is the list of attributes that get [name] added to
    their [_deps] when Python runs [invert_cachemap(name, deps)]: every entry of
    [deps], and, for those that are computed attributes, recursively their
    parents.  [None] models RecursionError (cyclic declarations) and the
    ValueError for an invalid parent.
    Simplification: non-parameter, non-cached attributes that happen to carry a
    [_deps] set (l.173-174) are treated as invalid parents; no class uses one. *)
Fixpoint invert (fuel : nat) (sch : schema V) (deps : list string) : option (list string) :=
  match fuel with
  | O => None
  | S n =>
    (fix go (l : list string) : option (list string) :=
       match l with
       | [] => Some []
       | p :: l' =>
         match sch p with
         | KParam _ => match go l' with Some r => Some (p :: r) | None => None end
         | KProp _ ps => match invert n sch ps, go l' with
                       | Some a, Some r => Some (p :: a ++ r)
                       | _, _ => None
                       end
         | KOther => None
         end
       end) deps
  end.

(** The declared ancestors of a computed attribute. *)
Definition ancestors (fuel : nat) (sch : schema V) (a : string) : option (list string) :=
  match sch a with
  | KProp _ ps => invert fuel sch ps
  | _ => Some []
  end.

Definition mem (x : string) (l : list string) : bool := existsb (String.eqb x) l.

(** [dep_names fuel sch names x]: the set [x._deps] after class creation
    (_cache.py:181-183), as the sub-list of the computed attributes [names]. *)
Definition is_dep (fuel : nat) (sch : schema V) (x a : string) : bool :=
  match ancestors fuel sch a with
  | Some l => mem x l
  | None => false
  end.

(** ** Object state: user-set parameter values [__name], [_cache],
    [_cache_overrides] (power_biased.py:75-106), and a ghost log of the computed
    attributes whose body was evaluated (most recent first; not in the code). *)
Record state := mkState {
  vals  : string -> option V;
  cache : string -> option V;
  ovr   : string -> option V;
  log   : list string
}.

Definition set_cache (st : state) (a : string) (v : V) : state :=
  mkState (vals st) (upd (cache st) a (Some v)) (ovr st) (a :: log st).

(** Run a body, given the meaning of attribute access. *)
Fixpoint runc (g : string -> state -> option (result V) * state) (c : comp V) (st : state)
  : option (result V) * state :=
  match c with
  | Ret r => (Some r, st)
  | Read a k =>
    match g a st with
    | (Some (Ok v), st') => runc g (k v) st'
    | (Some (Err e), st') => (Some (Err e), st')
    | (None, st') => (None, st')
    end
  end.

Variable sch : schema V.
Variable body : string -> comp V.           (* f(self) of each computed attribute *)
Variable validate : string -> V -> result V. (* f(self, value) of each parameter; side-effect free *)
Variable obj_eq : V -> V -> bool.            (* obj_eq(new, old), _cache.py:197-213 *)

(** Attribute access.  Parameters: _cache.py:240-253 ([hasattr] on the alias
    default evaluates it once more; the second evaluation is a cache hit).
    Computed attributes: _cache.py:276-295 and 353-381 (an interpolated function
    does not consult [_cache_overrides]; the [ignore_cache] keyword, which bypasses
    the cache altogether, is not modelled).  A body that raises is not cached. *)
Fixpoint get (fuel : nat) (a : string) (st : state) : option (result V) * state :=
  match fuel with
  | O => (None, st)
  | S n =>
    match sch a with
    | KParam d =>
      match vals st a with
      | Some v => (Some (Ok v), st)
      | None =>
        match d with
        | DNone => (Some (Err "ValueError: required parameter has not yet been set"), st)
        | DAttr b => get n b st
        | DVal v => (Some (validate a v), st)
        end
      end
    | KProp itp _ =>
      match (if itp then None else ovr st a) with
      | Some v => (Some (Ok v), st)
      | None =>
        match cache st a with
        | Some v => (Some (Ok v), st)
        | None =>
          match runc (get n) (body a) st with
          | (Some (Ok v), st') => (Some (Ok v), set_cache st' a v)
          | (r, st') => (r, st')
          end
        end
      end
    | KOther => (Some (Err "AttributeError"), st)
    end
  end.

(** [self._cache.pop(dep, None)] for every dep in x._deps.  The sets [_deps] live
    on property objects shared with sibling classes, which may have added more
    names to them: [extra x a]. *)
Variable extra : string -> string -> bool.
Definition popped (ifuel : nat) (x a : string) : bool := is_dep ifuel sch x a || extra x a.
Definition pop_deps (ifuel : nat) (x : string) (st : state) : state :=
  mkState (vals st) (fun a => if popped ifuel x a then None else cache st a) (ovr st) (log st).

(** Parameter assignment, _cache.py:224-240. *)
Definition set_param (ifuel : nat) (p : string) (v : V) (st : state) : result unit * state :=
  match sch p with
  | KParam _ =>
    match validate p v with
    | Err e => (Err e, st)
    | Ok w =>
      match vals st p with
      | Some old => if obj_eq w old then (Ok tt, st)
                    else (Ok tt, pop_deps ifuel p (mkState (upd (vals st) p (Some w)) (cache st) (ovr st) (log st)))
      | None => (Ok tt, pop_deps ifuel p (mkState (upd (vals st) p (Some w)) (cache st) (ovr st) (log st)))
      end
    end
  | _ => (Err "AttributeError: can't set attribute", st)
  end.

(** Deletion of a parameter, _cache.py:255-259: the value goes, the caches of the
    dependents stay. *)
Definition del_param (p : string) (st : state) : result unit * state :=
  match vals st p with
  | Some _ => (Ok tt, mkState (upd (vals st) p None) (cache st) (ovr st) (log st))
  | None => (Err "ValueError: cannot delete attribue", st)
  end.

(** Deletion of a computed attribute, _cache.py:80-93 and 297-298. *)
Definition del_prop (ifuel : nat) (a : string) (st : state) : result unit * state :=
  (Ok tt, pop_deps ifuel a (mkState (vals st) (upd (cache st) a None) (ovr st) (log st))).

(** [del obj.name] *)
Definition del_attr (ifuel : nat) (a : string) (st : state) : result unit * state :=
  match sch a with
  | KParam _ => del_param a st
  | KProp false _ => del_prop ifuel a st
  | KProp true _ => (Err "AttributeError", st)   (* plain functions on the class *)
  | KOther => (Err "AttributeError", st)
  end.

(** Histories. *)
Inductive op :=
| OSet (p : string) (v : V)
| OGet (a : string)
| ODel (a : string)
| OOverride (a : string) (v : V)   (* entry of cache_override(a=v), power_biased.py:75-104 *)
| OClear.                          (* its exit, power_biased.py:105-106 *)

Definition step (fuel ifuel : nat) (o : op) (st : state) : state :=
  match o with
  | OSet p v => snd (set_param ifuel p v st)
  | OGet a => snd (get fuel a st)
  | ODel a => snd (del_attr ifuel a st)
  | OOverride a v => mkState (vals st) (cache st) (upd (ovr st) a (Some v)) (log st)
  | OClear => mkState (vals st) (cache st) (fun _ => None) (log st)
  end.

Fixpoint run_ops (fuel ifuel : nat) (l : list op) (st : state) : state :=
  match l with
  | [] => st
  | o :: l' => run_ops fuel ifuel l' (step fuel ifuel o st)
  end.

(** A fresh object, _cache.py:191-194 ([obj._cache = {}]). *)
Definition init (ps : string -> option V) : state := mkState ps (fun _ => None) (fun _ => None) [].

End Cache.
Arguments state V : clear implicits.
Arguments op V : clear implicits.

(** ** Concrete values and [obj_eq], _cache.py:197-213

    Values: None, numbers, strings, numeric arrays.  [numpy.isscalar] holds for
    numbers and strings.  [numpy.allclose(a,b)]: |a-b| <= atol + rtol*|b| with
    rtol=1e-5, atol=1e-8, elementwise after broadcasting; a shape mismatch or a
    non-numeric operand raises and falls back to [new == old] (False for
    different kinds).  Simplification: arrays are one-dimensional. *)
Inductive pyval :=
| VNone
| VNum (q : Q)
| VStr (s : string)
| VArr (l : list Q).

Definition rtol : Q := 1 # 100000.
Definition atol : Q := 1 # 100000000.

Definition isclose (a b : Q) : bool :=
  Qle_bool (Qabs (a - b)) (atol + rtol * Qabs b).

Fixpoint allclose_list (a b : list Q) : bool :=
  match a, b with
  | [], [] => true
  | x :: a', y :: b' => isclose x y && allclose_list a' b'
  | _, _ => false
  end.

Definition allclose (a b : list Q) : bool :=
  match a, b with
  | [x], _ => forallb (fun y => isclose x y) b
  | _, [y] => forallb (fun x => isclose x y) a
  | _, _ => allclose_list a b
  end.

Definition py_obj_eq (new old : pyval) : bool :=
  match old with
  | VNone => false
  | VNum b => match new with
              | VNum a => Qeq_bool a b
              | VArr l => allclose l [b]
              | _ => false
              end
  | VStr s => match new with VStr t => String.eqb t s | _ => false end
  | VArr l => match new with
              | VNum a => allclose [a] l
              | VArr m => allclose m l
              | _ => false
              end
  end.
