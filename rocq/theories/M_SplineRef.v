(** Model of the reference-counted spline handles (_gcl/cpp/Spline.cpp:318-360, include/Spline.h:36-75).
    A program is a history of constructions, copies, assignments and destructions of named handles; implementation objects are numbered in
    the order of their allocation. Touching a freed object is the error state None. Evaluation only reads (no count is changed). *)
From Coq Require Import Arith List Bool.
Import ListNotations.

Record heap := { rc : nat -> nat; freed : nat -> bool; next : nat }.
Record pst := { hp : heap; handles : list (nat * option nat) }.   (* live handles and the object each points to (None: NULL) *)
Definition pst0 : pst := {| hp := {| rc := fun _ => 0; freed := fun _ => false; next := 0 |}; handles := [] |}.
Definition updn {A} (f : nat -> A) (i : nat) (v : A) : nat -> A := fun j => if Nat.eqb j i then v else f j.

(** `impl->refcount++` (Spline.cpp:324, 334, 349) *)
Definition incr (o : option nat) (m : heap) : option heap :=
  match o with None => Some m | Some i => if freed m i then None else Some {| rc := updn (rc m) i (S (rc m i)); freed := freed m; next := next m |} end.
(** `if(impl && --impl->refcount <= 0) delete impl` (Spline.cpp:345, 359); pred on nat: a count of 0 would stay 0 and free, as <= 0 does *)
Definition decr (o : option nat) (m : heap) : option heap :=
  match o with None => Some m | Some i => if freed m i then None else
    let c := pred (rc m i) in
    Some {| rc := updn (rc m) i c; freed := if Nat.leb c 0 then updn (freed m) i true else freed m; next := next m |} end.
Fixpoint look (h : nat) (l : list (nat * option nat)) : option (option nat) :=
  match l with [] => None | (k, o) :: t => if Nat.eqb k h then Some o else look h t end.
Fixpoint remove1 (h : nat) (l : list (nat * option nat)) : list (nat * option nat) :=
  match l with [] => [] | (k, o) :: t => if Nat.eqb k h then t else (k, o) :: remove1 h t end.
Fixpoint redirect (h : nat) (o : option nat) (l : list (nat * option nat)) : list (nat * option nat) :=
  match l with [] => [] | (k, p) :: t => if Nat.eqb k h then (k, o) :: t else (k, p) :: redirect h o t end.

Inductive sop :=
| SNew (h : nat)            (* Spline h(new Impl), Spline.cpp:318-325 *)
| SNull (h : nat)           (* Spline h; *)
| SCopy (h src : nat)       (* Spline h(src), Spline.cpp:327-335 *)
| SAssign (h src : nat)     (* h = src, Spline.cpp:337-352 *)
| SDestroy (h : nat)        (* ~Spline, Spline.cpp:354-361 *)
| SEval (h : nat).          (* h(x), Spline.cpp:362-367 *)

Definition eqo (a b : option nat) : bool :=
  match a, b with None, None => true | Some i, Some j => Nat.eqb i j | _, _ => false end.
(** One operation. None: memory error. Operations on names that are not (resp. already) in scope are not C++ programs and leave the state alone. *)
Definition sstep (s : pst) (o : sop) : option pst :=
  match o with
  | SNew h => match look h (handles s) with Some _ => Some s | None =>
      let i := next (hp s) in
      let m := {| rc := updn (rc (hp s)) i 0; freed := freed (hp s); next := S i |} in
      match incr (Some i) m with Some m' => Some {| hp := m'; handles := (h, Some i) :: handles s |} | None => None end end
  | SNull h => match look h (handles s) with Some _ => Some s | None => Some {| hp := hp s; handles := (h, None) :: handles s |} end
  | SCopy h src => match look h (handles s), look src (handles s) with
      | None, Some p => match incr p (hp s) with Some m => Some {| hp := m; handles := (h, p) :: handles s |} | None => None end
      | _, _ => Some s end
  | SAssign h src => match look h (handles s), look src (handles s) with
      | Some a, Some b => if eqo a b then Some s else
          match decr a (hp s) with None => None | Some m =>
          match incr b m with None => None | Some m' => Some {| hp := m'; handles := redirect h b (handles s) |} end end
      | _, _ => Some s end
  | SDestroy h => match look h (handles s) with
      | Some a => match decr a (hp s) with None => None | Some m => Some {| hp := m; handles := remove1 h (handles s) |} end
      | None => Some s end
  | SEval h => match look h (handles s) with
      | Some (Some i) => if freed (hp s) i then None else Some s
      | _ => Some s end
  end.
Fixpoint srun (s : pst) (l : list sop) : option pst :=
  match l with [] => Some s | o :: t => match sstep s o with Some s' => srun s' t | None => None end end.
