(** * Model of [preserve] and of loading simulation data, on top of the attribute cache

    /repo/pyRSD/rsd/power/dm/power_dm.py:180-219 and /repo/pyRSD/rsd/sim_loader.py:46-73 *)
From Coq Require Import List String Bool Arith.
From Verif Require Import M_Cache.
Import ListNotations.
Open Scope string_scope.

Section Preserve.
Context {V : Type}.
Variable sch : schema V.
Variable body : string -> comp V.
Variable validate : string -> V -> result V.
Variable obj_eq : V -> V -> bool.
Variable extra : string -> string -> bool.
Variables fuel ifuel : nat.

Notation setp := (set_param sch validate obj_eq extra ifuel).
Notation getp := (get sch body validate).

(** A [with] block: operations executed one after another, then either the normal
    end or an exception. *)
Record block := mkBlock { ops : list (op V); raises : option string }.

(** l.200-204, 211-212: read every allowable keyword; a name whose read raises
    aborts the entry. *)
Fixpoint save_params (names : list string) (st : state V) : result (list (string * V)) * state V :=
  match names with
  | [] => (Ok [], st)
  | k :: ks =>
    match getp fuel k st with
    | (Some (Ok v), st') =>
      match save_params ks st' with
      | (Ok l, st'') => (Ok ((k, v) :: l), st'')
      | (Err e, st'') => (Err e, st'')
      end
    | (Some (Err e), st') => (Err e, st')
    | (None, st') => (Err "RecursionError", st')
    end
  end.

(** A sequence of [setattr]s; the first failing one raises. *)
Fixpoint set_all (l : list (string * V)) (st : state V) : result unit * state V :=
  match l with
  | [] => (Ok tt, st)
  | (k, v) :: l' =>
    match setp k v st with
    | (Ok _, st') => set_all l' st'
    | (Err e, st') => (Err e, st')
    end
  end.

(** l.191-197: parameters of [_param_names] that hold a value, with it. *)
Definition set_params (names : list string) (st : state V) : list (string * V) :=
  flat_map (fun k => match vals st k with Some v => [(k, v)] | None => [] end) names.

(** l.217-219: delete the parameters that held no value on entry. *)
Definition del_unset (names : list string) (entry st : state V) : state V :=
  mkState (fun k => match vals entry k with
                    | None => if mem k names then None else vals st k
                    | Some _ => vals st k end)
          (cache st) (ovr st) (log st).

(** l.220-221: put the saved cache entries back (others stay). *)
Definition restore_cache (c : string -> option V) (st : state V) : state V :=
  mkState (vals st) (fun a => match c a with Some v => Some v | None => cache st a end) (ovr st) (log st).

(** The restoring code after [yield], l.209-221.  [names] lists [_param_names] in
    the iteration order of that set, [allowable] the constructor keywords. *)
Definition preserve_exit (names : list string) (entry : state V) (saved : list (string * V))
           (c : string -> option V) (st : state V) : result unit * state V :=
  match set_all saved st with
  | (Err e, st1) => (Err e, st1)
  | (Ok _, st1) =>
    match set_all (set_params names entry) st1 with
    | (Err e, st2) => (Err e, st2)
    | (Ok _, st2) => (Ok tt, restore_cache c (del_unset names entry st2))
    end
  end.

(** The whole statement [with model.preserve(kwargs): block].  The cache is copied
    (l.198) before the allowable keywords are read.  No try/finally: an exception in
    the block skips the restoring code. *)
Definition preserve (names allowable : list string) (kwargs : list (string * V)) (b : block) (st : state V)
  : result unit * state V :=
  let c := cache st in
  match save_params allowable st with
  | (Err e, st1) => (Err e, st1)
  | (Ok saved, st1) =>
    if forallb (fun kv => mem (fst kv) allowable) kwargs then
      match set_all kwargs st1 with
      | (Err e, st2) => (Err e, st2)
      | (Ok _, st2) =>
        let st3 := run_ops sch body validate obj_eq extra fuel ifuel (ops b) st2 in
        match raises b with
        | Some e => (Err e, st3)
        | None => preserve_exit names st saved c st3
        end
      end
    else (Err "ValueError: keywords to this function must be in `allowable_kwargs`", st1)
  end.

(** ** Loading simulation data, sim_loader.py:55-73.  The table dictionary
    [_loaded_data] is a plain attribute: here a parameter without dependents. *)
Definition load_sim (data_name flag_name : string) (tbl vtrue : V) (st : state V) : state V :=
  let st1 := mkState (upd (vals st) data_name (Some tbl)) (cache st) (ovr st) (log st) in
  snd (setp flag_name vtrue st1).

Definition unload_sim (data_name flag_name : string) (vfalse : V) (st : state V) : state V :=
  match vals st data_name with
  | None => st
  | Some _ =>
    let st1 := mkState (upd (vals st) data_name None) (cache st) (ovr st) (log st) in
    snd (setp flag_name vfalse st1)
  end.

End Preserve.
Arguments block V : clear implicits.
