(** * Constraint graph: ParameterSet.prepare_params

    /repo/pyRSD/rsdfit/parameters/parameterset.py:286-324.
    Parameter names are numbers; [names] is the insertion order of the dict and
    [expr n] is [par._expr_deps] (lmfit's list of the names in the expression),
    [None] when [par.expr is None]. *)
From Coq Require Import List Arith Bool.
Import ListNotations.

Definition mem (x : nat) (l : list nat) : bool := existsb (Nat.eqb x) l.
Definition upd {A} (f : nat -> A) (n : nat) (v : A) : nat -> A := fun m => if Nat.eqb m n then v else f m.
Fixpoint remove_first (x : nat) (l : list nat) : list nat :=
  match l with [] => [] | y :: l => if Nat.eqb x y then l else y :: remove_first x l end.

(** [deps n] is par.deps; [kids c n]: n in self[c].children. *)
Record pst := mkP { deps : nat -> list nat; kids : nat -> nat -> bool }.

Section Prep.
Variable names : list nat.
Variable expr : nat -> option (list nat).

(** parameter.py: constrained (no explicit override) *)
Definition constrained (n : nat) : bool := match expr n with Some _ => true | None => false end.

(** :294-296 *)
Definition p0 : pst := mkP (fun _ => []) (fun _ _ => false).
(** :303-306, one symbol *)
Definition parse_sym (n : nat) (st : pst) (s : nat) : pst :=
  if mem s names && negb (mem s (deps st n))
  then mkP (upd (deps st) n (deps st n ++ [s])) (upd (kids st) s (upd (kids st s) n true))
  else st.
(** :299-306, one parameter *)
Definition parse_par (st : pst) (n : nat) : pst :=
  match expr n with
  | None => st
  | Some l => fold_left (parse_sym n) l (mkP (upd (deps st) n []) (kids st))
  end.
Definition parse : pst := fold_left parse_par names p0.

(** :316-320: pop the constrained dependency, append its own dependencies that
    are not there yet, remove [n] from its children. *)
Definition elim_dep (st : pst) (n dep : nat) : pst :=
  let d0 := remove_first dep (deps st n) in
  let ds := upd (deps st) n d0 in
  let d1 := d0 ++ filter (fun x => negb (mem x d0)) (ds dep) in
  mkP (upd ds n d1) (upd (kids st) dep (upd (kids st dep) n false)).

(** :312-320: Python's list iterator is an index into the list being modified. *)
Fixpoint elim_par (fuel n i : nat) (st : pst) (red : bool) : option (pst * bool) :=
  match fuel with
  | O => None
  | S fuel =>
    match nth_error (deps st n) i with
    | None => Some (st, red)
    | Some dep =>
      if constrained dep then elim_par fuel n (S i) (elim_dep st n dep) true
      else elim_par fuel n (S i) st red
    end
  end.
Fixpoint pass (fuel : nat) (ns : list nat) (st : pst) (red : bool) : option (pst * bool) :=
  match ns with
  | [] => Some (st, red)
  | n :: ns => match elim_par fuel n 0 st red with Some (st, red) => pass fuel ns st red | None => None end
  end.
(** :309-320 the while loop *)
Fixpoint loop (fuel : nat) (st : pst) : option pst :=
  match fuel with
  | O => None
  | S f => match pass fuel names st false with
           | Some (st, true) => loop f st
           | Some (st, false) => Some st
           | None => None
           end
  end.
Definition prepare (fuel : nat) : option pst := loop fuel parse.
End Prep.
