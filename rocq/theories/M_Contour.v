(** Model of the 2D posteriors of the analysis: /repo/pyRSD/rsdfit/analysis/plot.py:12-26 (ctr_level), 66-81 (get_1d_histogram), 83-101 (get_2d_histogram),
    255-305 (the contours of plot_2d_posteriors: trace / scale, contourf with the levels).
    A histogram is a list of counts (the flattened 2D array) and fractions are rationals; np.histogram2d is given by the counts of the pairs that fall in a
    cell.  The interpolation of the 1D histograms, the axes and the drawing are not modelled. *)
From Coq Require Import List Arith ZArith QArith Lia Bool.
Import ListNotations.
Local Open Scope nat_scope.

(** hist.sort(), from the largest: plot.py:17-19 *)
Fixpoint insert_desc (x : nat) (l : list nat) : list nat := match l with [] => [x] | y :: t => if y <=? x then x :: y :: t else y :: insert_desc x t end.
Fixpoint desc (l : list nat) : list nat := match l with [] => [] | x :: l => insert_desc x (desc l) end.
(** np.cumsum(hist[::-1]) *)
Fixpoint cumsum (acc : nat) (l : list nat) : list nat := match l with [] => [] | x :: l => (acc + x) :: cumsum (acc + x) l end.
(** np.searchsorted, left: the number of leading entries below the level *)
Fixpoint searchsorted (lvl : Q) (total : nat) (cs : list nat) : nat :=
  match cs with [] => 0 | c :: cs => if Qle_bool lvl (inject_Z (Z.of_nat c) / inject_Z (Z.of_nat total)) then 0 else S (searchsorted lvl total cs) end.
Definition position (hist : list nat) (lvl : Q) : nat := let cs := cumsum 0 (desc hist) in searchsorted lvl (last cs 0) cs.
(** hist[-i]: with i = 0 the first entry, that is the smallest *)
Definition from_end (hist : list nat) (i : nat) : nat := match i with O => last (desc hist) 0 | S k => nth k (desc hist) 0 end.
(** plot.py:22-25 *)
Definition ctr_level (hist : list nat) (lvls : list Q) (infinite : bool) : list nat :=
  let clist := [0] ++ map (from_end hist) (rev (map (position hist) lvls)) ++ [match desc hist with [] => 0 | m :: _ => m end] in
  if infinite then clist else tl clist.

(** The cache of 2D histograms.  A chain is a list of samples; sample i of parameter p is [chain p]; centres of cells are left to [centres]. *)
Section Cache.
Variable chain : nat -> list Z.           (* parameter index -> flat trace *)
Variable cell : nat -> Z -> nat.          (* the bin of a value of a parameter *)
Record histogram := { x_of : nat (* the parameter of the first axis *); y_of : nat; count : nat -> nat -> nat }.
Definition histogram2d (i j : nat) : histogram :=
  {| x_of := i; y_of := j; count := fun a b => length (filter (fun s => (cell i (fst s) =? a) && (cell j (snd s) =? b)) (combine (chain i) (chain j))) |}.
(** plot.py:85: tuple(sorted([index1, index2])) *)
Definition key (i j : nat) : nat * nat := if i <=? j then (i, j) else (j, i).
Fixpoint find (k : nat * nat) (c : list ((nat * nat) * histogram)) : option histogram :=
  match c with [] => None | (k', h) :: c => if (fst k' =? fst k) && (snd k' =? snd k) then Some h else find k c end.
Definition get_2d (c : list ((nat * nat) * histogram)) (i j : nat) : histogram * list ((nat * nat) * histogram) :=
  match find (key i j) c with Some h => (h, c) | None => let h := histogram2d i j in (h, (key i j, h) :: c) end.
Fixpoint calls (c : list ((nat * nat) * histogram)) (ps : list (nat * nat)) : list ((nat * nat) * histogram) :=
  match ps with [] => c | (i, j) :: ps => calls (snd (get_2d c i j)) ps end.
End Cache.
