(** * What least-recently-used caching means, independently of the implementation *)
From Coq Require Import List Arith Bool ZArith.
From Verif Require Import M_Lru.
Import ListNotations.
Set Implicit Arguments.
Section Spec.
Variables (A K V : Type) (keq : K -> K -> bool).
(** keys without repetitions, first occurrence kept *)
Fixpoint dedup (l : list K) : list K :=
  match l with [] => [] | k :: l' => k :: filter (fun k' => negb (keq k' k)) (dedup l') end.
(** the n most recently used distinct keys of a use sequence (oldest use first in [uses]) *)
Definition most_recent (n : nat) (uses : list K) : list K := firstn n (dedup (rev uses)).
Definition member (k : K) (l : list K) : bool := existsb (fun k' => keq k' k) l.
(** the key equality is an equivalence *)
Definition key_equivalence : Prop :=
  (forall a, keq a a = true) /\ (forall a b, keq a b = keq b a) /\
  (forall a b c, keq a b = true -> keq b c = true -> keq a c = true).
End Spec.

Section Trace.
Variables (A K V : Type) (keq : K -> K -> bool) (mk : A -> K).
(** the calls (with their answers) since the last cache_clear of a history *)
Fixpoint since_clear (h : list (op A)) (rs : list (answer V)) (acc : list (A * answer V)) : list (A * answer V) :=
  match h, rs with
  | Clear :: h', _ => since_clear h' rs []
  | Call a :: h', r :: rs' => since_clear h' rs' (acc ++ [(a, r)])
  | _, _ => acc
  end.
Definition returned (x : A * answer V) : bool := match fst (snd x) with Ret _ => true | _ => false end.
Definition evaluated (x : A * answer V) : bool := snd (snd x).
(** keys used by calls that returned *)
Definition uses (tr : list (A * answer V)) : list K := map (fun x => mk (fst x)) (filter returned tr).
End Trace.
