(** * Regular-grid interpolation: a model of pyRSD/rsd/_interpolate.py (RegularGridInterpolator)
    Coordinates and table entries are reals (no NaN); one sample point is a list of coordinates. Trailing
    value dimensions are not modelled (they are carried along pointwise). *)
From Coq Require Import Reals List Arith Lia Bool.
Import ListNotations.
Set Implicit Arguments.

Definition gridT := list (list R).
(** the table, indexed by one index per dimension *)
Definition table := list nat -> R.

(** __init__ checks, _interpolate.py:92-107: strictly ascending points, matching shape. *)
Fixpoint ascendingb (l : list R) : bool :=
  match l with x :: ((y :: _) as l') => (if Rlt_dec x y then true else false) && ascendingb l' | _ => true end.
Fixpoint shapes_match (g : gridT) (shape : list nat) : bool :=
  match g, shape with [], _ => true | p :: g', n :: s' => ascendingb p && (n =? length p) && shapes_match g' s' | _ :: _, [] => false end.
Definition init_ok (g : gridT) (shape : list nat) : bool := (length g <=? length shape) && shapes_match g shape.

(** np.searchsorted(grid, x), side='left': the number of entries < x of a sorted array. *)
Fixpoint searchsorted (g : list R) (x : R) : nat := match g with [] => 0 | e :: g' => (if Rlt_dec e x then 1 else 0) + searchsorted g' x end.
(** _find_indices for one coordinate, _interpolate.py:179-197:  i = searchsorted - 1, clamped to [0, size-2].
    Only for size >= 2: with a single grid point the code divides 0 by 0 and returns NaN, here [None]. *)
Definition find_index (g : list R) (x : R) : nat := Nat.min (searchsorted g x - 1) (length g - 2).
Definition norm_distance (g : list R) (x : R) : R :=
  let i := find_index g x in ((x - nth i g 0) / (nth (i + 1) g 0 - nth i g 0))%R.
Fixpoint find_indices (g : gridT) (xs : list R) : list nat := match g, xs with p :: g', x :: xs' => find_index p x :: find_indices g' xs' | _, _ => [] end.
Fixpoint norm_distances (g : gridT) (xs : list R) : list R := match g, xs with p :: g', x :: xs' => norm_distance p x :: norm_distances g' xs' | _, _ => [] end.

(** itertools.product of [[i, i+1] for i in indices], in the order of itertools. *)
Fixpoint product_edges (idx : list nat) : list (list nat) :=
  match idx with [] => [[]] | i :: idx' => map (cons i) (product_edges idx') ++ map (cons (i + 1)) (product_edges idx') end.
(** the weight loop, _interpolate.py:162-164. *)
Fixpoint weight (e idx : list nat) (y : list R) : R :=
  match e, idx, y with ei :: e', i :: idx', yi :: y' => ((if ei =? i then 1 - yi else yi) * weight e' idx' y')%R | _, _, _ => 1%R end.
(** _evaluate_linear, _interpolate.py:152-166: values += table[edge] * weight over all edges. *)
Fixpoint acc_edges (v : table) (idx : list nat) (y : list R) (es : list (list nat)) : R :=
  match es with [] => 0%R | e :: es' => (v e * weight e idx y + acc_edges v idx y es')%R end.
Definition evaluate_linear (v : table) (idx : list nat) (y : list R) : R := acc_edges v idx y (product_edges idx).
(** _evaluate_nearest, _interpolate.py:168-172. *)
Fixpoint nearest_index (idx : list nat) (y : list R) : list nat :=
  match idx, y with i :: idx', yi :: y' => (if Rle_dec yi (1 / 2) then i else i + 1) :: nearest_index idx' y' | _, _ => [] end.
Definition evaluate_nearest (v : table) (idx : list nat) (y : list R) : R := v (nearest_index idx y).

Inductive method := Linear | Nearest.
Inductive ires := IOk (r : list (option R)) | DomainError | IValueError.
(** the bounds test of one coordinate, _interpolate.py:137-142: grid[i][0] <= p <= grid[i][-1]. *)
Definition in_bounds1 (g : list R) (x : R) : bool :=
  (if Rle_dec (hd 0%R g) x then true else false) && (if Rle_dec x (last g 0%R) then true else false).
Fixpoint in_bounds (g : gridT) (xs : list R) : bool := match g, xs with p :: g', x :: xs' => in_bounds1 p x && in_bounds g' xs' | _, _ => true end.

(** fill_value: None = extrapolate, Some f = use f (which may be NaN, None) for points outside. *)
Definition eval_point (g : gridT) (v : table) (m : method) (xs : list R) : option R :=
  if existsb (fun p => length p <=? 1) g then None
  else Some (match m with Linear => evaluate_linear | Nearest => evaluate_nearest end v (find_indices g xs) (norm_distances g xs)).
(** __call__, _interpolate.py:109-150. *)
Definition call (g : gridT) (v : table) (m : method) (bounds_error : bool) (fill : option (option R)) (pts : list (list R)) : ires :=
  if negb (forallb (fun xs => length xs =? length g) pts) then IValueError
  else if bounds_error && negb (forallb (in_bounds g) pts) then DomainError
  else IOk (map (fun xs => match fill with
                           | Some f => if negb bounds_error && negb (in_bounds g xs) then f else eval_point g v m xs
                           | None => eval_point g v m xs end) pts).
