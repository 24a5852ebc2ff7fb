(** Specification vocabulary for the analysis of chains. *)
From Coq Require Import String Reals Bool Arith Lra Sorted Permutation.
From Coq Require Import List.
From Verif Require Import M_Results S_Results M_Anal.
Import ListNotations.
Local Open Scope R_scope.

(** the trace of a parameter: walkers x iterations *)
Definition tr (r : results R) (k : string) : list (list R) := match trace_of r k with Some t => t | None => [] end.
(** the mean over the walkers of minus the log likelihood of iteration i *)
Definition mean_lkl (r : results R) (i : nat) : R := fold_right Rplus 0 (map (fun w => - nth i w 0) (lnprobs r)) / INR (length (lnprobs r)).
(** iteration i of result r is used: its mean minus log likelihood is below the cutoff and it is not in the burn-in *)
Definition used (mn cutoff : R) (burn : option R) (r : results R) (i : nat) : Prop := mean_lkl r i < mn + cutoff /\ (burn_count burn (iterations r) <= i)%nat.
(** the results found in a folder: well formed, at least one walker and one iteration, the same parameters up to order, the same number of walkers,
    at least one constrained parameter; the free names of the first in alphabetical order (this version of the library writes them so) *)
Definition fitting (r0 : results R) (r : results R) : Prop :=
  (exists m, good 0 m r /\ (1 <= m)%nat) /\ Permutation (free r) (free r0) /\ Permutation (con r) (con r0) /\ walkers r = walkers r0.
Definition chain_folder (found : list (results R)) : Prop :=
  match found with
  | [] => False
  | r0 :: _ => Forall (fitting r0) found /\ (1 <= walkers r0)%nat /\ con r0 <> []
  end.
Definition alphabetical (l : list string) : Prop := Sorted (fun a b => str_leb a b = true) l.
(** the column of a matrix *)
Definition col (j : nat) (m : list (list R)) : list R := map (fun row => nth j row 0) m.
(** decidable form *)
Definition usedb (mn cutoff : R) (burn : option R) (r : results R) (i : nat) : bool := if Rlt_dec (mean_lkl r i) (mn + cutoff) then Nat.leb (burn_count burn (iterations r)) i else false.
(** some iteration is used *)
Definition survives (mn cutoff : R) (burn : option R) (r : results R) : bool := existsb (usedb mn cutoff burn r) (seq 0 (iterations r)).
(** the samples used of one walker, in order *)
Definition pick (mn cutoff : R) (burn : option R) (r : results R) (l : list R) : list R := map (fun i => nth i l 0) (filter (usedb mn cutoff burn r) (seq 0 (iterations r))).
(** mn is the smallest mean minus log likelihood of any iteration of any result *)
Definition best (found : list (results R)) (mn : R) : Prop :=
  (exists r i, In r found /\ (i < iterations r)%nat /\ mean_lkl r i = mn) /\ (forall r i, In r found -> (i < iterations r)%nat -> mn <= mean_lkl r i).
