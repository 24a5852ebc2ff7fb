(** * What it means for a class to match a table, and the declaration check *)
From Coq Require Import List String Bool Arith.
From Verif Require Import M_Cache S_Cache M_Schema.
Import ListNotations.
Open Scope string_scope.

Fixpoint lookup (a : string) (t : table) : option entry :=
  match t with
  | [] => None
  | (b, e) :: t' => if String.eqb a b then Some e else lookup a t'
  end.

(** A schema with bodies conforms to a table: same kinds, same declared parents,
    same alias defaults, and the bodies read at most the listed attributes. *)
Definition conforms {V} (t : table) (sch : schema V) (body : string -> comp V) : Prop :=
  forall a, match lookup a t with
            | None => sch a = KOther
            | Some (EParam (Some b)) => sch a = KParam (DAttr b)
            | Some (EParam None) => exists d, sch a = KParam d /\ forall b, d <> DAttr b
            | Some (EProp i ps rs) => sch a = KProp i ps /\ forall b, may_read (body a) b -> In b rs
            end.

(** The schema described by a table (values irrelevant). *)
Definition sch_of (t : table) : schema unit :=
  fun a => match lookup a t with
           | None => KOther
           | Some (EParam (Some b)) => KParam (DAttr b)
           | Some (EParam None) => KParam DNone
           | Some (EProp i ps _) => KProp i ps
           end.

Definition edges (t : table) (a : string) : list string :=
  match lookup a t with
  | Some (EProp _ _ rs) => rs
  | Some (EParam (Some b)) => [b]
  | _ => []
  end.

(** Everything reachable from the work list by reads and aliases. *)
Fixpoint closure (fuel : nat) (t : table) (work acc : list string) : list string :=
  match fuel, work with
  | S n, x :: w => if mem x acc then closure n t w acc
                   else closure n t (edges t x ++ w) (x :: acc)
  | _, _ => acc
  end.

Definition subsetb (a b : list string) : bool := forallb (fun x => mem x b) a.

Definition is_param (t : table) (a : string) : bool :=
  match lookup a t with Some (EParam _) => true | _ => false end.

Definition depth : nat := 20.

(** The check for one attribute: parents resolve, the closure is closed, and every
    parameter in it is a declared ancestor or in the list of gaps. *)
Definition attr_ok (t : table) (gaps : list string) (a : string) : bool :=
  match lookup a t with
  | Some (EProp _ _ rs) =>
    match ancestors depth (sch_of t) a with
    | None => false
    | Some l =>
      let c := closure 2000 t rs [] in
      subsetb rs c && subsetb (flat_map (edges t) c) c &&
      forallb (fun p => negb (is_param t p) || mem p l || mem p gaps) c
    end
  | _ => true
  end.

Definition table_ok (t : table) (gaps : list string) : bool :=
  forallb (fun r => attr_ok t gaps (fst r)) t.

(** An undeclared dependence: attribute [a] reads its way to parameter [p] although
    [p] is not among its declared ancestors. *)
Definition undeclared (t : table) (a p : string) : bool :=
  match lookup a t, ancestors depth (sch_of t) a with
  | Some (EProp _ _ rs), Some l => is_param t p && mem p (closure 2000 t rs []) && negb (mem p l)
  | _, _ => false
  end.
