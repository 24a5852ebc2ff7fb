(** * Specification vocabulary for parameters *)
From Coq Require Import List Reals.
From Verif Require Import M_Prep M_ParamVal M_Prior.
Import ListNotations.
Open Scope R_scope.

(** inside [min, max] (an absent bound is infinite) *)
Definition in_bounds (s : pspec) (x : R) : Prop :=
  (forall b, pmin s = Some b -> b <= x) /\ (forall b, pmax s = Some b -> x <= b).
(** inside the support of a uniform prior *)
Definition in_prior (s : pspec) (x : R) : Prop := forall l u, pprior s = Unif l u -> l <= x <= u.
(** a uniform prior has a non-empty interval, the bounds are ordered *)
Definition prior_ok (s : pspec) : Prop := forall l u, pprior s = Unif l u -> l < u.
Definition bounds_ok (s : pspec) : Prop := forall a b, pmin s = Some a -> pmax s = Some b -> a <= b.
(** the constraint of n names d *)
Definition mentions (expr : nat -> option (list nat)) (n d : nat) : Prop := exists l, expr n = Some l /\ In d l.
(** no chain of three constraints starts at n *)
Definition two_levels (expr : nat -> option (list nat)) (n : nat) : Prop :=
  forall d d', mentions expr n d -> mentions expr d d' -> expr d' = None.
(** user operations: assign an unconstrained parameter (inside its bounds if it is varied), read anything *)
Definition proper {V} (expr : nat -> option (list nat)) (vary : nat -> bool) (clamp : nat -> V -> V) (o : vop) : Prop :=
  match o with VSet n v => expr n = None /\ (vary n = true -> clamp n v = v) | VGet _ => True end.
(** component i replaced by v *)
Fixpoint setnth (l : list R) (i : nat) (v : R) : list R :=
  match l, i with [], _ => [] | _ :: l, O => v :: l | x :: l, S i => x :: setnth l i v end.
(** the assignments (name, value) applied to base, later ones win *)
Definition assign_all (base : nat -> R) (kv : list (nat * R)) : nat -> R :=
  fold_left (fun b kv => upd b (fst kv) (snd kv)) kv base.
(** the number behind a finite log-probability *)
Definition lnval (l : lnR) : R := match l with Some x => x | None => 0 end.
