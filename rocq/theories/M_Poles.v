(** * Evaluation on (k, mu) grids and multipole integration
    /repo/pyRSD/rsd/tools.py:19-35 (return_xarray), 224-262 (broadcast_kmu), 264-326 (monopole, quadrupole, ... decorators);
    /repo/pyRSD/rsd/transfers/poles.py:24-69 (MultipoleTransfer); /repo/pyRSD/_gcl/cpp/DiscreteQuad.cpp:3-65 (SimpsIntegrate),
    scipy.integrate.simps(y, x=x) with the default even='avg' (same formulas).
    Floats are exact reals.  The decorated method is evaluated element by element: [f k mu]. *)
From Coq Require Import Reals List Arith Bool.
From Verif Require Import M_Transfer.
Import ListNotations.
Local Open Scope R_scope.

(** ** Broadcasting *)
(** an argument: a scalar, a list or 1-d array, or a 2-d array (rows, columns, elements) *)
Inductive arg := Scalar (x : R) | Vec (l : list R) | Mat (nr nc : nat) (a : nat -> nat -> R).
(** after :236-239: an array of one or two dimensions *)
Inductive arr := A1 (l : list R) | A2 (nr nc : nat) (a : nat -> nat -> R).
Definition to_arr (x : arg) : arr := match x with Scalar v => A1 [v] | Vec l => A1 l | Mat r c a => A2 r c a end.
(** k[:,newaxis] and mu[newaxis,:] *)
Definition column (l : list R) : arr := A2 (length l) 1 (fun i _ => nth i l 0).
Definition row (l : list R) : arr := A2 1 (length l) (fun _ j => nth j l 0).
(** :241-249 *)
Definition align (k mu : arr) : arr * arr :=
  match k, mu with
  | A1 lk, A1 lm => if (length lm =? length lk)%nat then (k, mu) else (column lk, row lm)
  | A2 _ _ _, A1 lm => (k, row lm)
  | A1 lk, A2 _ _ _ => (column lk, mu)
  | _, _ => (k, mu)
  end.
(** np.broadcast_arrays, :251: each dimension must agree or be one *)
Definition bdim (a b : nat) : option nat := if (a =? b)%nat then Some a else if (a =? 1)%nat then Some b else if (b =? 1)%nat then Some a else None.
Definition pick (n i : nat) : nat := if (n =? 1)%nat then 0%nat else i.
Definition stretch (r c : nat) (a : nat -> nat -> R) : nat -> nat -> R := fun i j => a (pick r i) (pick c j).
Inductive pair_arr := P1 (k mu : list R) | P2 (nr nc : nat) (k mu : nat -> nat -> R).
Definition broadcast (k mu : arr) : option pair_arr :=
  match k, mu with
  | A1 lk, A1 lm => if (length lk =? length lm)%nat then Some (P1 lk lm) else None
  | A2 r c a, A2 r' c' b =>
    match bdim r r', bdim c c' with Some nr, Some nc => Some (P2 nr nc (stretch r c a) (stretch r' c' b)) | _, _ => None end
  | _, _ => None                              (* does not occur after align *)
  end.
(** ravel(order='F'): the columns one after the other *)
Definition ravelF {A} (nr nc : nat) (a : nat -> nat -> A) : list A := flat_map (fun j => map (fun i => a i j) (seq 0 nr)) (seq 0 nc).
(** the returned DataArray: one-dimensional with the pair (k, mu) as coordinate of each value, or two-dimensional with
    coordinates k[:,0] and mu[0,:]; or an exception (ValueError: shapes, or xarray's "dimensions must have the same
    length as the number of data dimensions") *)
Inductive labelled := L1 (l : list (R * R * R)) | L2 (ks mus : list R) (v : nat -> nat -> R) | ValueError.
Definition L1f (f : R -> R -> R) (l : list (R * R)) : labelled := L1 (map (fun p => (fst p, snd p, f (fst p) (snd p))) l).
(** :251-258 with return_xarray :19-35; np.squeeze drops every axis of length one, the coordinates keep theirs *)
Definition call (f : R -> R -> R) (flatten : bool) (k mu : arg) : labelled :=
  let '(ka, ma) := align (to_arr k) (to_arr mu) in
  match broadcast ka ma with
  | None => ValueError
  | Some (P1 lk lm) => L1f f (combine lk lm)
  | Some (P2 nr nc K M) =>
    if flatten then L1f f (combine (ravelF nr nc K) (ravelF nr nc M))
    else if (nr =? 1)%nat || (nc =? 1)%nat then ValueError      (* squeezed to fewer dimensions than its coordinates have *)
    else L2 (map (fun i => K i 0%nat) (seq 0 nr)) (map (fun j => M 0%nat j) (seq 0 nc)) (fun i j => f (K i j) (M i j))
  end.

(** ** Simpson's rule on points (x, y) *)
(** DiscreteQuad.cpp:3-28 / scipy _basic_simps: one pair of intervals *)
Definition seg (p q r : R * R) : R :=
  let h0 := fst q - fst p in let h1 := fst r - fst q in let hsum := h0 + h1 in let hprod := h0 * h1 in let h0divh1 := h0 / h1 in
  1 / 6 * hsum * (snd p * (2 - 1 / h0divh1) + snd q * hsum * hsum / hprod + snd r * (2 - h0divh1)).
Fixpoint basic_simps (l : list (R * R)) : R :=
  match l with
  | p :: ((q :: ((r :: _) as t)) as _u) => seg p q r + basic_simps t
  | _ => 0
  end.
Definition trap (p q : R * R) : R := 1 / 2 * (fst q - fst p) * (snd q + snd p).
(** DiscreteQuad.cpp:41-65 *)
Definition simps (l : list (R * R)) : R :=
  let n := length l in
  if Nat.even n then
    let d := (0, 0) in
    1 / 2 * (basic_simps (firstn (n - 1) l) + basic_simps (tl l)) +
    1 / 2 * (trap (nth (n - 2) l d) (nth (n - 1) l d) + trap (nth 0 l d) (nth 1 l d))
  else basic_simps l.

(** np.linspace(0., 1., n) *)
Definition linspace01 (n : nat) : list R := map (fun i => INR i / INR (n - 1)) (seq 0 n).

(** ** The decorators, tools.py:264-326 *)
Definition kern (ell : nat) (mu : R) : R :=
  if (ell =? 0)%nat then 1
  else if (ell =? 2)%nat then 5 / 2 * (3 * mu ^ 2 - 1)
  else if (ell =? 4)%nat then 9 / 8 * (35 * mu ^ 4 - 30 * mu ^ 2 + 3)
  else 13 / 16 * (231 * mu ^ 6 - 315 * mu ^ 4 + 105 * mu ^ 2 - 5).       (* ell = 6 *)
(** :270-272: Nmu = 41, or 42 if there are 41 wavenumbers *)
Definition deco_nmu (n : nat) : nat := if (n =? 41)%nat then 42%nat else 41%nat.
Definition pole (ell : nat) (f : R -> R -> R) (ks : list R) : option (list R) :=
  let mus := linspace01 (deco_nmu (length ks)) in
  match call f false (Vec ks) (Vec mus) with
  | L2 _ _ v => Some (map (fun i => simps (combine mus (map (fun j => kern ell (nth j mus 0) * v i j) (seq 0 (length mus))))) (seq 0 (length ks)))
  | _ => None                                  (* ValueError *)
  end.

(** ** DarkMatterSpectrum.poles, /repo/pyRSD/rsd/power/dm/power_dm.py:1016-1044, through MultipoleTransfer, poles.py:24-69:
    the model is evaluated at the flattened grid points, reshaped and integrated for each ell.
    (poles.py:30 makes the number of mu points odd; the grid weights are all one, so no point is masked.) *)
Definition odd_nmu (n : nat) : nat := if Nat.even n then S n else n.
Definition flat_grid (ks mus : list R) : list (R * R) := list_prod ks mus.
Definition mtransfer (nmu : nat) (ells : list nat) (ks : list R) (flat : list R) : list (list R) :=
  let mus := linspace01 (odd_nmu nmu) in
  map (fun i => map (fun ell =>
    simps (combine mus (map (fun j => (2 * INR ell + 1) * legendre ell (nth j mus 0) * nth (i * length mus + j) flat 0) (seq 0 (length mus))))) ells)
      (seq 0 (length ks)).
Definition poles (f : R -> R -> R) (nmu : nat) (ells : list nat) (ks : list R) : option (list (list R)) :=
  let g := flat_grid ks (linspace01 (odd_nmu nmu)) in
  match call f false (Vec (map fst g)) (Vec (map snd g)) with
  | L1 l => Some (mtransfer nmu ells ks (map (fun t => snd t) l))
  | _ => None
  end.
