(** * Specification vocabulary for results *)
From Coq Require Import String List Arith Permutation.
From Verif Require Import M_Results.
Import ListNotations.
Open Scope list_scope.

(** a block of samples: every walker has m samples of ndim numbers *)
Definition block {V} (m ndim : nat) (run : list (list (list V))) : Prop :=
  Forall (fun w => length w = m /\ Forall (fun s => length s = ndim) w) run.
(** no number of the block is zero *)
Definition all_nonzero {V} (iszero : V -> bool) (run : list (list (list V))) : Prop :=
  Forall (Forall (Forall (fun v => iszero v = false))) run.
(** two traces one after the other, walker by walker *)
Definition follows {V} (a b c : list (list V)) : Prop :=
  length a = length b /\ length c = length a /\ forall w, nth w c [] = nth w a [] ++ nth w b [].

(** A results object as the library builds it: distinct names, one column per free name, one field per constrained
    name with the shape of the chain, and the table of parameters made from them. *)
Record good {V} (d : V) (m : nat) (r : results V) : Prop := {
  g_names : NoDup (free r ++ con r);
  g_chain : block m (length (free r)) (chain r);
  g_lnp : length (lnprobs r) = length (chain r) /\ Forall (fun w => length w = m) (lnprobs r);
  g_cchain : match cchain r with
             | None => con r = []
             | Some cc => con r <> [] /\ Permutation (map fst cc) (con r) /\
                          Forall (fun f => length (snd f) = length (chain r) /\ Forall (fun w => length w = m) (snd f)) cc
             end;
  g_table : forall k, (forall i, nth_error (free r) i = Some k -> trace_of r k = Some (column V d i (chain r))) /\
                      (In k (con r) -> trace_of r k = match cchain r with Some cc => assoc cc k | None => None end) /\
                      (~ In k (free r ++ con r) -> trace_of r k = None) }.
