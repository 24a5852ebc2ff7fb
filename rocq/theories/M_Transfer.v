(** * Transfers onto wedges and multipoles: a model of pyRSD/rsd/transfers

    Floats are real numbers; a NaN (or an infinite mode count) is [None].  Two-dimensional
    (k, mu) arrays are row-major flat lists with [g_nk] rows of [g_nmu] columns (numpy C order). *)
From Coq Require Import String Reals List Arith Lia Bool.
Import ListNotations.
Set Implicit Arguments.

(** a float that may be NaN, and IEEE-style propagation of NaN *)
Definition num := option R.
Definition nadd (a b : num) : num := match a, b with Some x, Some y => Some (x + y)%R | _, _ => None end.
Definition nmul (a b : num) : num := match a, b with Some x, Some y => Some (x * y)%R | _, _ => None end.
(** 0/0 and x/0 are NaN here; numpy gives inf for x/0 with x <> 0, which cannot occur in [average]
    with positive weights because an empty bin has a zero numerator as well. *)
Definition ndiv (a b : num) : num :=
  match a, b with Some x, Some y => if Req_EM_T y 0 then None else Some (x / y)%R | _, _ => None end.
Definition isnull (a : num) : bool := match a with None => true | Some _ => false end.

Definition leb_R (x y : R) : bool := if Rle_dec x y then true else false.
Definition ltb_R (x y : R) : bool := if Rlt_dec x y then true else false.

(** PkmuGrid, transfers/__init__.py:5-33 (the coordinate mu_cen is not used by the computations). The k and mu
    entries of null points (no modes) are often NaN in real data; here they are arbitrary reals, and the theorems
    never constrain them. *)
Record grid := { g_nk : nat; g_nmu : nat; g_kcen : list R; g_k : list R; g_mu : list R; g_modes : list num }.
(** arrays have the advertised shape *)
Definition grid_wf (g : grid) : Prop :=
  length (g_kcen g) = g_nk g /\ length (g_k g) = g_nk g * g_nmu g /\ length (g_mu g) = g_nk g * g_nmu g /\ length (g_modes g) = g_nk g * g_nmu g.

(** PkmuGrid.notnull, transfers/__init__.py:72-74. *)
Definition notnull1 (m : num) : bool := match m with Some x => ltb_R 0 x | None => false end.
Definition notnull (g : grid) : list bool := map notnull1 (g_modes g).

(** boolean-mask indexing  a[mask]  (reads the selected entries in row-major order). *)
Fixpoint gather (A : Type) (m : list bool) (l : list A) : list A :=
  match m, l with b :: m', x :: l' => if b then x :: gather m' l' else gather m' l' | _, _ => [] end.
(** boolean-mask assignment  toret = full(nan); toret[mask] = v  (v as long as the mask has True entries). *)
Fixpoint scatter (m : list bool) (v : list num) : list num :=
  match m with
  | [] => []
  | false :: m' => None :: scatter m' v
  | true :: m' => match v with x :: v' => x :: scatter m' v' | [] => None :: scatter m' [] end
  end.

Inductive res (A : Type) := Ok (a : A) | ValueError (msg : string) | IndexError.
Arguments Ok {A}. Arguments ValueError {A}. Arguments IndexError {A}.
Definition bind (A B : Type) (x : res A) (f : A -> res B) : res B :=
  match x with Ok a => f a | ValueError m => ValueError m | IndexError => IndexError end.

(** what can be assigned to [power]: nothing, a flat array, or a 2D array (given row-major). *)
Inductive pin := PNone | PFlat (v : list num) | PGrid (v : list num).
(** TransferBase.power setter, transfers/__init__.py:112-147. A 2D array of another shape makes the
    boolean indexing  val[notnull]  fail (IndexError). *)
Definition set_power (g : grid) (v : pin) : res (list num) :=
  match v with
  | PNone => Ok (map (fun _ => None) (g_modes g))
  | PFlat l => if length l =? length (filter (fun b : bool => b) (notnull g)) then Ok (scatter (notnull g) l)
               else ValueError "if 1D array is passed for ``power``, must have length"
  | PGrid l => if length l =? length (g_modes g) then Ok (scatter (notnull g) (gather (notnull g) l)) else IndexError
  end.

(** flatk / flatmu, transfers/__init__.py:104-110: where the model must be evaluated. *)
Definition flatk (g : grid) : list R := gather (notnull g) (g_k g).
Definition flatmu (g : grid) : list R := gather (notnull g) (g_mu g).

(** np.isclose(hi, 1.0): |hi - 1| <= atol + rtol*|1| with atol = 1e-8, rtol = 1e-5. *)
Definition isclose1 (hi : R) : bool := leb_R (Rabs (hi - 1)) (1 / 10 ^ 8 + 1 / 10 ^ 5)%R.
(** GriddedWedgeTransfer.mu_bounds setter, grid.py:44-55 (and WedgeTransfer, wedges.py:41-54):
    the new contents of the list that was passed, which is also the stored value. *)
Definition set_bounds (val : list (R * R)) : list (R * R) :=
  map (fun b => if isclose1 (snd b) then (fst b, 1.0005 * snd b)%R else b) val.

(** mu_edges, grid.py:79-88: np.asarray(mu_bounds).ravel(). *)
Fixpoint ravel2 (b : list (R * R)) : list R := match b with [] => [] | (lo, hi) :: b' => lo :: hi :: ravel2 b' end.
Fixpoint nondecr (l : list R) : bool :=
  match l with x :: ((y :: _) as l') => leb_R x y && nondecr l' | _ => true end.
Definition mu_edges (b : list (R * R)) : res (list R) :=
  if nondecr (ravel2 b) then Ok (ravel2 b) else ValueError "specified `mu` bounds are not monotonically increasing".

(** np.digitize(x, edges) for nondecreasing edges (right=False): the number of edges <= x. *)
Fixpoint digitize (x : R) (edges : list R) : nat :=
  match edges with [] => 0 | e :: es => (if leb_R e x then 1 else 0) + digitize x es end.

(** np.repeat(arange(Nk)[:,None], Nmu, axis=1), flattened: the row number of every grid point. *)
Fixpoint row_numbers (start nk nmu : nat) : list nat :=
  match nk with 0 => [] | S n => repeat start nmu ++ row_numbers (S start) n nmu end.

(** number of columns of binshape, grid.py:139-145: len(mu_edges) - 1 + 2. *)
Definition ncols (edges : list R) : nat := length edges - 1 + 2.
(** mu_indices, grid.py:147-155: ravel_multi_index of (row + 1, digitized mu). *)
Definition mu_indices (g : grid) (edges : list R) : list nat :=
  map (fun p => fst p * ncols edges + snd p)
      (combine (map S (gather (notnull g) (row_numbers 0 (g_nk g) (g_nmu g))))
               (map (fun x => digitize x edges) (gather (notnull g) (g_mu g)))).

(** np.bincount(idx, weights=w): the C loop  out[idx[i]] += w[i]. *)
Fixpoint add_at (out : list num) (i : nat) (x : num) : list num :=
  match out, i with
  | [], _ => []
  | o :: out', 0 => nadd o x :: out'
  | o :: out', S i' => o :: add_at out' i' x
  end.
Fixpoint bincount (out : list num) (idx : list nat) (w : list num) : list num :=
  match idx, w with i :: idx', x :: w' => bincount (add_at out i x) idx' w' | _, _ => out end.

(** reshape((Nrow, ncol)) of a flat array *)
Fixpoint reshape (A : Type) (nrow ncol : nat) (l : list A) : list (list A) :=
  match nrow with 0 => [] | S n => firstn ncol l :: reshape n ncol (skipn ncol l) end.
(** l[1:-1] and l[::2] *)
Definition interior (A : Type) (l : list A) : list A := removelast (tl l).
Fixpoint evens (A : Type) (l : list A) : list A :=
  match l with [] => [] | [x] => [x] | x :: _ :: l' => x :: evens l' end.

(** GriddedWedgeTransfer.sum, grid.py:157-169. *)
Definition sum_mu (g : grid) (edges : list R) (d : list num) : list (list num) :=
  let nc := ncols edges in
  let zeros := repeat (Some 0%R) ((g_nk g + 2) * nc) in
  map (@evens num) (map (@interior num) (interior (reshape (g_nk g + 2) nc (bincount zeros (mu_indices g edges) (gather (notnull g) d))))).

Fixpoint map2 (A B C : Type) (f : A -> B -> C) (l : list A) (l' : list B) : list C :=
  match l, l' with a :: l1, b :: l2 => f a b :: map2 f l1 l2 | _, _ => [] end.
(** GriddedWedgeTransfer.average, grid.py:171-187. *)
Definition average (g : grid) (edges : list R) (d w : list num) : list (list num) :=
  map2 (map2 ndiv) (sum_mu g edges (map2 nmul d w)) (sum_mu g edges w).

(** kmin/kmax parameters, grid.py:57-77: one bound per output column, [None] = no bound. *)
Definition geb (k : R) (lo : option R) : bool := match lo with None => true | Some a => leb_R a k end.
Definition leb_o (k : R) (hi : option R) : bool := match hi with None => true | Some b => leb_R k b end.
(** in_k_range, grid.py:129-137. *)
Definition in_k_range (g : grid) (kmin kmax : list (option R)) : list (list bool) :=
  map (fun k => map2 (fun lo hi => geb k lo && leb_o k hi) kmin kmax) (g_kcen g).

(** the checks and masking at the end of both __call__s, grid.py:216-223 and 312-319. *)
Definition finish (msg : string) (mask : list (list bool)) (out : list (list num)) : res (list (list num)) :=
  if existsb (fun x => x) (concat (map2 (map2 (fun b v => b && isnull v)) mask out)) then ValueError msg
  else Ok (map2 (map2 (fun b v => if b : bool then v else None)) mask out).

(** GriddedWedgeTransfer.__call__, grid.py:189-223. [bounds] is the stored (already adjusted) value. *)
Definition wedge_call (g : grid) (bounds : list (R * R)) (kmin kmax : list (option R)) (v : pin) : res (list (list num)) :=
  bind (set_power g v) (fun P =>
  if forallb isnull P then ValueError "please set ``power`` arrary; all NaN right now"
  else bind (mu_edges bounds) (fun edges =>
  finish "NaN values in GriddedWedgeTransfer result within valid k range!" (in_k_range g kmin kmax) (average g edges P (g_modes g)))).

(** Legendre polynomials, scipy.special.legendre(ell)(x): Bonnet's recurrence,
    (n+1) L_{n+1} = (2n+1) x L_n - n L_{n-1}; returns (L_n, L_{n+1}). *)
Fixpoint legendre2 (n : nat) (x : R) : R * R :=
  match n with
  | 0 => (1, x)%R
  | S m => let (a, b) := legendre2 m x in (b, ((2 * INR (S m) + 1) * x * b - INR (S m) * a) / (INR (S m) + 1))%R
  end.
Definition legendre (n : nat) (x : R) : R := fst (legendre2 n x).

(** legendre_weights, grid.py:266-271, and the product with the power, grid.py:302. *)
Definition tobin (g : grid) (ell : nat) (P : list num) : list num :=
  map2 (fun mu p => nmul (Some ((2 * INR ell + 1) * legendre ell mu)%R) p) (g_mu g) P.
(** the single bin of the multipole transfer: (0., 1.) after the setter's adjustment, grid.py:240-245. *)
Definition pole_bounds : list (R * R) := set_bounds [(0, 1)%R].
(** np.squeeze of an (Nk, 1) array followed by the transpose of the stack; with Nk = 1 the squeezed array
    is 0-dimensional, so the stack is 1-dimensional and building the 2D DataArray raises ValueError. *)
Definition transpose_cols (nk : nat) (cols : list (list num)) : list (list num) :=
  map (fun i => map (fun c => nth i c None) cols) (seq 0 nk).
(** GriddedMultipoleTransfer.__call__, grid.py:281-319. *)
Definition poles_call (g : grid) (ells : list nat) (kmin kmax : list (option R)) (v : pin) : res (list (list num)) :=
  bind (set_power g v) (fun P =>
  if forallb isnull P then ValueError "please set ``power`` arrary; all NaN right now"
  else bind (mu_edges pole_bounds) (fun edges =>
  if g_nk g =? 1 then ValueError "different number of dimensions on data and dims"
  else let cols := map (fun ell => concat (average g edges (tobin g ell P) (g_modes g))) ells in
  finish "NaN values in GriddedMultipoleTransfer result within valid k range!" (in_k_range g kmin kmax) (transpose_cols (g_nk g) cols))).

(** WedgeTransfer.__init__'s grid, wedges.py:34-38: k x linspace(0,1,Nmu+1) with unit weights. *)
Definition linspace01 (n : nat) : list R := map (fun i => INR i / INR n)%R (seq 0 (S n)).
Definition smooth_grid (ks : list R) (mus : list R) : grid :=
  {| g_nk := length ks; g_nmu := length mus; g_kcen := ks;
     g_k := concat (map (fun k => map (fun _ => k) mus) ks);
     g_mu := concat (map (fun _ => mus) ks);
     g_modes := concat (map (fun _ => map (fun _ => Some 1%R) mus) ks) |}.
(** WedgeTransfer.__call__, wedges.py:67-116: sums of the power over bins divided by the plain counts
    (np.bincount without weights counts ones), no k-range and no NaN check. *)
Definition smooth_wedge_call (ks : list R) (nmu : nat) (bounds : list (R * R)) (v : pin) : res (list (list num)) :=
  let g := smooth_grid ks (linspace01 nmu) in
  bind (set_power g v) (fun P =>
  bind (mu_edges bounds) (fun edges =>
  Ok (map2 (map2 ndiv) (sum_mu g edges P) (sum_mu g edges (map (fun _ => Some 1%R) (g_modes g)))))).

(** Constructing a wedge transfer from Python lists: the list objects live on a heap.
    grid.py:26-42 (wedges.py:24-32): a tuple is wrapped in a fresh list, a list is used as is;
    mu_cen is computed from the entries before the setter rewrites them. *)
Definition heap := list (list (R * R)).
Inductive barg := AList (loc : nat) | ATuple (b : R * R).
Fixpoint upd (A : Type) (l : list A) (i : nat) (x : A) : list A :=
  match l, i with [], _ => [] | _ :: l', 0 => x :: l' | y :: l', S i' => y :: upd l' i' x end.
Record wedge_obj := { w_mu_cen : list R; w_loc : nat }.
Definition construct (h : heap) (a : barg) : heap * wedge_obj :=
  match a with
  | AList loc => let v := nth loc h [] in
      (upd h loc (set_bounds v), {| w_mu_cen := map (fun b => 1 / 2 * (fst b + snd b))%R v; w_loc := loc |})
  | ATuple b => (h ++ [set_bounds [b]], {| w_mu_cen := [1 / 2 * (fst b + snd b)]%R; w_loc := length h |})
  end.
