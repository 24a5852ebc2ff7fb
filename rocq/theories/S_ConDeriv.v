(** * Values of all parameters as functions of the free ones *)
From Coq Require Import List Reals.
From Coquelicot Require Import Coquelicot.
From Verif Require Import M_ParamVal.
Import ListNotations.

(** W: the values of all parameters when the free ones have the values theta: the parameters without expression that are not free keep what
    they hold, and every other one is its expression at these values, within its bounds *)
Definition determined {V} (expr : nat -> option (list nat)) (fexp : nat -> list V -> V) (clamp : nat -> V -> V) (free : list nat)
           (st : vst V) (theta : list V) (W : nat -> V) : Prop :=
  (forall i u v, nth_error free i = Some u -> nth_error theta i = Some v -> W u = v) /\
  (forall u, expr u = None -> ~ In u free -> W u = val st u) /\
  (forall n l, expr n = Some l -> W n = clamp n (fexp n (map W l))).
(** nothing in the symbol table contradicts the values held by fixed parameters *)
Definition sound {V} (expr : nat -> option (list nat)) (free : list nat) (st : vst V) : Prop :=
  forall u x, expr u = None -> ~ In u free -> sym st u = Some x -> x = val st u.
(** the list with the argument number i replaced *)
Definition replaced {V} (i : nat) (t : V) (theta : list V) : list V := firstn i theta ++ t :: skipn (S i) theta.
(** what autograd.grad promises: near the point the function has the values f, and the result is the derivative of f there *)
Definition differentiates (grad : (list R -> option R) -> nat -> list R -> option R) : Prop :=
  forall F i theta x d f, nth_error theta i = Some x -> grad F i theta = Some d ->
  (forall t, F (replaced i t theta) = Some (f t)) -> is_derive f x d.
