(** Model of selections from gridded data and covariance matrices: /repo/pyRSD/rsdfit/data/indexing.py:6-62 (slice_data), 167-181 (to_pandas, unique), 183-208 (get_nearest),
    264-276 (isel), 292-316 (nearest).  One axis with its conditions (the indexers of the dimensions of the axis, in the order of the dimensions); np.take on the other
    axes is independent.  Python's range of a slice is modelled for step 1; pandas' get_indexer with method 'nearest' for increasing coordinates (pandas refuses
    coordinates that are not monotonic; decreasing ones are not modelled).  Coordinates are rationals. *)
From Coq Require Import List Arith ZArith QArith Qabs Bool Lia.
Import ListNotations.
Local Open Scope Z_scope.

Inductive condition := Scalar (i : Z) | Elements (l : list Z) | Mask (m : list bool) | Slice (a b : option Z).
(** slice.indices(n), step 1 *)
Definition clipped (n : Z) (d : Z) (x : option Z) : Z :=
  match x with None => d | Some a => if a <? 0 then Z.max 0 (a + n) else Z.min n a end.
Fixpoint range (a : Z) (len : nat) : list Z := match len with O => [] | S k => a :: range (a + 1) k end.
Fixpoint positions_of (i : Z) (m : list bool) : list Z := match m with [] => [] | true :: m => i :: positions_of (i + 1) m | false :: m => positions_of (i + 1) m end.
(** indexing.py:33-40; None: an integer is not iterable *)
Definition expand (n : Z) (c : condition) : option (list Z) :=
  match c with
  | Scalar _ => None
  | Elements l => Some l
  | Mask m => Some (positions_of 0 m)
  | Slice a b => let x := clipped n 0 a in let y := clipped n n b in Some (range x (Z.to_nat (y - x)))
  end.
Definition memz (x : Z) (l : list Z) : bool := existsb (Z.eqb x) l.
Fixpoint insert_set (x : Z) (l : list Z) : list Z := match l with [] => [x] | y :: t => if x <? y then x :: l else if x =? y then l else y :: insert_set x t end.
Fixpoint sorted_set (l : list Z) : list Z := match l with [] => [] | x :: l => insert_set x (sorted_set l) end.
Inductive key := All | One (i : Z) | Many (l : list Z).
Fixpoint expand_all (n : Z) (cs : list condition) : option (list (list Z)) :=
  match cs with [] => Some [] | c :: cs => match expand n c, expand_all n cs with Some l, Some ls => Some (l :: ls) | _, _ => None end end.
(** indexing.py:26-51; None: an exception *)
Definition axis_key (n : Z) (cs : list condition) : option key :=
  match cs with
  | [] => Some All
  | Scalar i :: _ => Some (One i)
  | c :: _ =>
    match expand_all n cs with
    | None => None
    | Some ls => let valid := sorted_set (filter (fun x => forallb (memz x) ls) (hd [] ls)) in
                 if Nat.ltb 1 (length cs) && Nat.eqb (length valid) 0 then None else Some (Many valid)
    end
  end.
(** np.take *)
Definition at_ {A} (data : list A) (z : Z) : option A :=
  let n := Z.of_nat (length data) in
  if (0 <=? z) && (z <? n) then nth_error data (Z.to_nat z) else if (- n <=? z) && (z <? 0) then nth_error data (Z.to_nat (z + n)) else None.
Fixpoint all_some {A} (l : list (option A)) : option (list A) :=
  match l with [] => Some [] | Some a :: l => option_map (cons a) (all_some l) | None :: _ => None end.
Definition select {A} (data : list A) (cs : list condition) : option (list A) :=
  match axis_key (Z.of_nat (length data)) cs with
  | None => None
  | Some All => Some data
  | Some (One i) => option_map (fun a => [a]) (at_ data i)
  | Some (Many l) => all_some (map (at_ data) l)
  end.

(** pd.Index.unique *)
Definition memq (x : Q) (l : list Q) : bool := existsb (Qeq_bool x) l.
Fixpoint unique (seen : list Q) (l : list Q) : list Q := match l with [] => [] | x :: l => if memq x seen then unique seen l else x :: unique (x :: seen) l end.
(** get_indexer(method='nearest') of an increasing index: the left neighbour if it is strictly nearer, otherwise the right one *)
Fixpoint nearest_in (l : list Q) (v : Q) : nat :=
  match l with
  | x :: ((y :: _) as t) => if Qle_bool y v then S (nearest_in t v)
                            else if Qle_bool v x then O
                            else if Qle_bool (y - v) (v - x) then 1%nat else O
  | _ => O
  end.
Definition get_nearest (coords : list Q) (v : Q) : nat * Q := let u := unique [] coords in let i := nearest_in u v in (i, nth i u 0%Q).
