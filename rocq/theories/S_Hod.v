(** A galaxy sample: a list of haloes, each with one central galaxy, a number of satellites and a linear bias. *)
From Coq Require Import Reals List Arith.
Import ListNotations.
Local Open Scope R_scope.
Definition sample := list (nat * R).
(** sum of [w n b] over the haloes whose number of satellites satisfies [sel] *)
Fixpoint total (sel : nat -> bool) (w : R -> R -> R) (l : sample) : R :=
  match l with [] => 0 | (n, b) :: r => (if sel n then w (INR n) b else 0) + total sel w r end.
Definition any (n : nat) : bool := true.
Definition lonely (n : nat) : bool := Nat.eqb n 0.   (* central of type A *)
Definition one (n : nat) : bool := Nat.eqb n 1.      (* its satellite is of type A *)
Definition many (n : nat) : bool := Nat.leb 2 n.     (* its satellites are of type B *)
Definition some (n : nat) : bool := Nat.leb 1 n.     (* central of type B *)
Definition haloes (sel : nat -> bool) (l : sample) : R := total sel (fun _ _ => 1) l.
Definition satellites (sel : nat -> bool) (l : sample) : R := total sel (fun n _ => n) l.
Definition bias (sel : nat -> bool) (l : sample) : R := total sel (fun _ b => b) l.           (* halo-weighted sum of biases *)
Definition sat_bias (sel : nat -> bool) (l : sample) : R := total sel (fun n b => n * b) l.   (* satellite-weighted *)
Definition galaxies (l : sample) : R := haloes any l + satellites any l.
(** ordered pairs of satellites in the same halo *)
Definition sat_pairs (sel : nat -> bool) (l : sample) : R := total sel (fun n _ => n * (n - 1)) l.
