(** Model of WindowFunctionTransfer.__call__ (pyRSD/rsd/transfers/window.py:51-132) for even multipoles: zero padding up to k = 100, P2xi of every multipole,
    the combination of multipoles (an arbitrary function of the separations and the columns; the identity for `dry_run`), xi2P of every multipole.
    The unconvolved multipoles are the input; k_out = None. mcfit_kwargs are N and lowring. *)
From Coq Require Import Reals List ZArith.
From Coquelicot Require Import Coquelicot.
From Verif Require Import M_Mcfit.
Import ListNotations.
Local Open Scope R_scope.
Definition log10 (x : R) : R := ln x / ln 10.
(** numpy.arange(a, b, s): a + i s for 0 <= i < ceil((b - a)/s) *)
Definition ceil (x : R) : Z := (- Int_part (- x))%Z.
Definition arange (a b s : R) : list R := map (fun i => a + INR i * s) (seq 0 (Z.to_nat (ceil ((b - a) / s)))).
(** window.py:82-85: oldk.max() is the last of an increasing array *)
Definition pad_k (k : list R) : list R :=
  let dk := log10 (nth 1 k 0) - log10 (nth 0 k 0) in
  k ++ map (fun e => Rpower 10 e) (arange (log10 (nth (length k - 1) k 0) + dk) (2 + 1/2 * dk) dk).
(** window.py:87-90: zeros beyond the input *)
Definition pad_col (n : nat) (col : list R) : list R := col ++ repeat 0 (n - length col).
(** window.py:96-99: the loop; rr is overwritten, so the separations kept are those of the last multipole. A multipole 2h with its column. *)
Fixpoint forward (lg : C -> C) (N : option nat) (low : bool) (ex : bool) (k : list R) (cols : list (nat * list R)) : option (list R * list (nat * list R)) :=
  match cols with
  | [] => Some ([], [])
  | (h, P) :: rest =>
      match P2xi lg h k N low with None => None | Some c =>
        match mc_call c P ex ex with None => None | Some (r, xi) =>
          match forward lg N low ex k rest with None => None
          | Some (rr, xis) => Some (match rest with [] => r | _ => rr end, (h, xi) :: xis) end end end
  end.
(** window.py:110-113; kk is not used afterwards *)
Fixpoint backward (lg : C -> C) (N : option nat) (low : bool) (ex : bool) (rr : list R) (cols : list (nat * list R)) : option (list (nat * list R)) :=
  match cols with
  | [] => Some []
  | (h, xi) :: rest =>
      match xi2P lg h rr N low with None => None | Some c =>
        match mc_call c xi ex ex with None => None | Some (kk, P) =>
          match backward lg N low ex rr rest with None => None | Some Ps => Some ((h, P) :: Ps) end end end
  end.
(** window.py:51-132; the result is labelled with the padded k *)
Definition wt_call (lg : C -> C) (conv : list R -> list (nat * list R) -> list (nat * list R)) (N : option nat) (low ex : bool) (k : list R) (cols : list (nat * list R))
  : option (list R * list (nat * list R)) :=
  let newk := pad_k k in
  match forward lg N low ex newk (map (fun c => (fst c, pad_col (length newk) (snd c))) cols) with
  | None => None
  | Some (rr, xis) => match backward lg N low ex rr (conv rr xis) with None => None | Some Ps => Some (newk, Ps) end
  end.
