(** * Running several MCMC chains

    /repo/pyRSD/rsdfit/solvers/emcee_solver.py:17-141 (ChainManager), 278-286 (number of walkers), 350-363 (the loop).
    The sampler, the logging and the wall clock are not modelled.  MPI point-to-point messages are delivered
    one by one, in any order and after any delay; [Iprobe] never removes a message. *)
From Coq Require Import ZArith List Bool Arith.
Import ListNotations.

(** emcee_solver.py:278-286 *)
Definition walker_count (requested ndim : Z) : Z :=
  let n := if (2 * ndim >? requested)%Z then (2 * ndim)%Z else requested in
  if (n mod 2 =? 0)%Z then n else (n + 1)%Z.

(** emcee_solver.py:73-80 *)
Definition do_convergence (niter : nat) : bool :=
  if (niter <? 500)%nat then false
  else if (niter <? 1500)%nat && (niter mod 200 =? 0)%nat then true
  else if (1500 <=? niter)%nat && (niter mod 100 =? 0)%nat then true
  else false.

(** emcee_solver.py:49: the tags; :108-118 the tag of an exception *)
Inductive reason := CONVERGED | EXIT | CTRL_C.
(** what the convergence test of the root does (:88-90); [Raised]: it fails with an exception of its own *)
Inductive verdict := NotYet | Converged | Raised.

(** where a chain is in the loop of emcee_solver.py:350-361 *)
Inductive phase :=
| At (n : nat)          (* sample n drawn, body not yet run *)
| Waiting (n : nat)     (* in comm.Barrier(), :86 *)
| Stopped (r : reason)  (* the with block was left by an exception *)
| Finished.             (* the loop is exhausted *)

Record net := { chain : nat -> phase; flight : list (nat * reason); box : nat -> reason -> Prop }.

Section Run.
Variable N : nat.                (* comm.size *)
Variable niters start : nat.     (* :345, :318 *)
Variable test_conv : bool.       (* :270 *)

Definition set {A} (f : nat -> A) (i : nat) (a : A) : nat -> A := fun j => if (j =? i)%nat then a else f j.
(** the next pass through the loop *)
Definition next (n : nat) : phase := if (S n <? niters)%nat then At (S n) else Finished.
Definition initial : net :=
  {| chain := fun _ => if (0 <? niters)%nat then At 0 else Finished; flight := []; box := fun _ _ => False |}.
(** __exit__, :126-130: one message to every other chain *)
Definition others (i : nat) : list nat := filter (fun r => negb (r =? i)%nat) (seq 0 N).
Definition leave (s : net) (i : nat) (r : reason) : net :=
  {| chain := set (chain s) i (Stopped r); flight := flight s ++ map (fun d => (d, r)) (others i); box := box s |}.
(** check_status, :62-71: the reason a chain finds in its mailbox *)
Inductive probed (s : net) (i : nat) : option reason -> Prop :=
| probe_exit : box s i EXIT -> probed s i (Some EXIT)
| probe_conv : ~ box s i EXIT -> box s i CONVERGED -> probed s i (Some CONVERGED)
| probe_ctrl : ~ box s i EXIT -> ~ box s i CONVERGED -> box s i CTRL_C -> probed s i (Some CTRL_C)
| probe_none : ~ box s i EXIT -> ~ box s i CONVERGED -> ~ box s i CTRL_C -> probed s i None.
(** one step of the system; the label is the reason of a stop that does not come from a message *)
Inductive step (s : net) : option reason -> net -> Prop :=
| deliver l1 d r l2 : flight s = l1 ++ (d, r) :: l2 ->
    step s None {| chain := chain s; flight := l1 ++ l2; box := fun j q => box s j q \/ (j = d /\ q = r) |}
| outside i n r : i < N -> chain s i = At n -> r <> CONVERGED ->      (* ctrl+c, a signal, an error in the model *)
    step s (Some r) (leave s i r)
| told i n r : i < N -> chain s i = At n -> probed s i (Some r) ->    (* :355 *)
    step s None (leave s i r)
| go_on i n : i < N -> chain s i = At n -> probed s i None -> test_conv && do_convergence (start + n + 1) = false ->
    step s None {| chain := set (chain s) i (next n); flight := flight s; box := box s |}
| wait i n : i < N -> chain s i = At n -> probed s i None -> test_conv && do_convergence (start + n + 1) = true ->
    step s None {| chain := set (chain s) i (Waiting n); flight := flight s; box := box s |}
| tested v : (forall i, i < N -> exists n, chain s i = Waiting n) -> 0 < N ->  (* the barrier opens *)
    let s' := {| chain := fun j => match chain s j with Waiting n => next n | p => p end; flight := flight s; box := box s |} in
    step s (match v with NotYet => None | Converged => Some CONVERGED | Raised => Some EXIT end)
           (match v with NotYet => s' | Converged => leave s' 0 CONVERGED | Raised => leave s' 0 EXIT end).
(** executions; the list collects the causes, latest first *)
Inductive run : list reason -> net -> Prop :=
| run_start : run [] initial
| run_step cs s o s' : run cs s -> step s o s' -> run (match o with Some r => r :: cs | None => cs end) s'.
(** the future of a state *)
Inductive later (s : net) : net -> Prop :=
| later_refl : later s s
| later_step s' o s'' : later s s' -> step s' o s'' -> later s s''.
End Run.
