(** Specification of what an info file can hold. *)
From Coq Require Import Ascii String List Reals.
From Verif Require Import M_Bestfit.
Import ListNotations.
Local Open Scope char_scope.
(** a text that survives as a cell: not empty; "#" only in texts with a space or a quote (those are quoted) *)
Definition writable (s : list ascii) : Prop := s <> [] /\ (In " " s \/ In """" s \/ ~ In "#" s).
(** one word *)
Definition word (s : list ascii) : Prop := s <> [] /\ ~ In " " s.
(** numbers and one-word strings *)
Definition storable (v : pyv) : Prop :=
  match v with
  | PNum ty t => In ty (map list_ascii_of_string ["int"; "float"; "int64"; "float64"]%string) /\ word t
  | PStr s => word s
  | _ => False
  end.
(** a table with a value in every cell *)
Definition complete (f : frame) : Prop :=
  f_cols f <> [] /\ Forall writable (f_cols f) /\
  Forall (fun r => writable (fst r) /\ length (snd r) = length (f_cols f) /\ Forall (fun c => exists s, c = Some s /\ writable s) (snd r)) (f_rows f).
(** the value last given to k *)
Fixpoint latest (k : list ascii) (kvs : list (list ascii * pyv)) (d : option pyv) : option pyv :=
  match kvs with [] => d | (k', v) :: t => latest k t (if list_eq_dec ascii_dec k k' then Some v else d) end.
Definition column (name : string) (row : list (string * R)) : option R := option_map snd (find (fun c => String.eqb name (fst c)) row).
