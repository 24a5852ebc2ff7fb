(** What a selection along an axis of n elements should be: the elements that every condition names. *)
From Coq Require Import List ZArith QArith Qabs.
From Verif Require Import M_Select.
Import ListNotations.
Local Open Scope Z_scope.

(** the integer z names position p: counted from the start, or from the end if negative *)
Definition names (n z p : Z) : Prop := z = p \/ z = p - n.
Definition holds (n : Z) (c : condition) (p : Z) : Prop :=
  match c with
  | Scalar i => names n i p
  | Elements l => exists z, In z l /\ names n z p
  | Mask m => nth_error m (Z.to_nat p) = Some true
  | Slice a b => (forall x, a = Some x -> (if x <? 0 then x + n else x) <= p) /\ (forall y, b = Some y -> p < (if y <? 0 then y + n else y))
  end.
(** p is a position of the axis where all the conditions hold *)
Definition wanted (n : Z) (cs : list condition) (p : Z) : Prop := 0 <= p < n /\ forall c, In c cs -> holds n c p.
(** rows are the elements of data at the positions ps *)
Inductive rows_at {A} (data : list A) : list Z -> list A -> Prop :=
| rows_nil : rows_at data [] []
| rows_cons p ps r rs : 0 <= p -> nth_error data (Z.to_nat p) = Some r -> rows_at data ps rs -> rows_at data (p :: ps) (r :: rs).
(** without integers from the end and with complete masks *)
Definition plain (n : Z) (c : condition) : Prop :=
  match c with Scalar _ => False | Elements l => forall z, In z l -> 0 <= z < n | Mask m => Z.of_nat (length m) = n | Slice _ _ => True end.

(** w is a coordinate nearest to v *)
Definition nearest_to (coords : list Q) (v w : Q) : Prop := In w coords /\ forall x, In x coords -> (Qabs (v - w) <= Qabs (v - x))%Q.
Fixpoint rising (l : list Q) : Prop := match l with x :: ((y :: _) as t) => (x <= y)%Q /\ rising t | _ => True end.
Fixpoint strictly_rising (l : list Q) : Prop := match l with x :: ((y :: _) as t) => (x < y)%Q /\ strictly_rising t | _ => True end.
