(** * Summaries of the chain of a parameter

    /repo/pyRSD/rsdfit/results/emcee_results.py:75-93 (flat_trace, median), 124-192 (one_sigma, two_sigma, three_sigma), 205-211 (stderr), with
    numpy's percentile (linear interpolation between the two nearest of the sorted samples, at (n-1) q/100).  Floats are reals.  The chain is a list of
    walkers, each the list of its samples; the caching of the values is M_Results. *)
From Coq Require Import Reals List.
Import ListNotations.
Local Open Scope R_scope.

(** np.sort *)
Fixpoint insert (x : R) (l : list R) : list R := match l with [] => [x] | y :: t => if Rle_dec x y then x :: l else y :: insert x t end.
Fixpoint sort (l : list R) : list R := match l with [] => [] | x :: t => insert x (sort t) end.
(** np.percentile(l, q); an empty array is refused (IndexError) *)
Definition percentile (l : list R) (q : R) : option R :=
  match l with
  | [] => None
  | _ => let s := sort l in
         let x := q / 100 * INR (length s - 1) in
         let i := Z.to_nat (Int_part x) in
         let a := nth i s 0 in
         let b := nth (Nat.min (S i) (length s - 1)) s 0 in
         Some (a + (b - a) * (x - INR i))
  end.
(** emcee_results.py:75-81 *)
Definition flat (burnin : nat) (trace : list (list R)) : list R := concat (map (skipn burnin) trace).
(** :84-93 *)
Definition median (burnin : nat) (trace : list (list R)) : option R := percentile (flat burnin trace) 50.
(** [-(vals[0] - vals[1]), vals[2] - vals[0]] of the rescaled percentiles *)
Definition interval (plo phi : R) (rescaling : R) (burnin : nat) (trace : list (list R)) : option (R * R) :=
  match percentile (flat burnin trace) 50, percentile (flat burnin trace) plo, percentile (flat burnin trace) phi with
  | Some m, Some l, Some h => Some (- (m * rescaling - l * rescaling), h * rescaling - m * rescaling)
  | _, _, _ => None
  end.
(** :137-141, :160-164, :183-187 *)
Definition one_sigma := interval (15.86555) (84.13445).
Definition two_sigma := interval (2.2775) (97.7225).
Definition three_sigma := interval (0.135) (99.865).
(** :205-211 *)
Definition stderr (rescaling : R) (burnin : nat) (trace : list (list R)) : option R :=
  match one_sigma rescaling burnin trace with Some (l, h) => Some (1/2 * (Rabs l + h)) | None => None end.
