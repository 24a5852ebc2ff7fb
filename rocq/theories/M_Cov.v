(** * Model of pyRSD/rsdfit/data/covariance_matrix.py (CovarianceMatrix, trim_k) and of the parts of
      pyRSD/rsdfit/data/indexing.py that trim_k and sel use *)
From Coq Require Import List Arith Bool ZArith Lia.
Import ListNotations.
Set Implicit Arguments.
Local Open Scope nat_scope.

(** np.triu_indices(N): row by row, diagonal included *)
Definition triu (N : nat) : list (nat * nat) := flat_map (fun i => map (fun j => (i, j)) (seq i (N - i))) (seq 0 N).
(** np.tril_indices(N): row by row, diagonal included *)
Definition tril (N : nat) : list (nat * nat) := flat_map (fun i => map (fun j => (i, j)) (seq 0 (S i))) (seq 0 N).

(** sum(range(i)) *)
Fixpoint sum_range (i : nat) : nat := match i with 0 => 0 | S i' => sum_range i' + i' end.
(** covariance_matrix.py:198-210 _get_contracted_index; [None] = IndexError *)
Definition contracted_index (N : nat) (i j : Z) : option Z :=
  let i := if (i <? 0)%Z then (i + Z.of_nat N)%Z else i in
  let j := if (j <? 0)%Z then (j + Z.of_nat N)%Z else j in
  if negb ((0 <=? i)%Z && (i <? Z.of_nat N)%Z) then None
  else if negb ((0 <=? j)%Z && (j <? Z.of_nat N)%Z) then None
  else
    let '(i, j) := if (j <? i)%Z then (j, i) else (i, j) in
    Some (i * (Z.of_nat N - 1) - Z.of_nat (sum_range (Z.to_nat i)) + j)%Z.

Section Data.
Variable X : Type.
Variable junk : nat -> nat -> X.      (* contents of np.empty *)
Definition matrix := nat -> nat -> X.
Definition mset (m : matrix) (i j : nat) (v : X) : matrix :=
  fun a b => if Nat.eqb a i && Nat.eqb b j then v else m a b.
(** m[rows, cols] = values (numpy evaluates the right-hand side first) *)
Fixpoint assign (m : matrix) (l : list ((nat * nat) * X)) : matrix :=
  match l with [] => m | ((i, j), v) :: l' => assign (mset m i j v) l' end.
(** covariance_matrix.py:15-25 condensed_to_full *)
Definition condensed_to_full (data : list X) (N : nat) : matrix :=
  let m := assign junk (combine (triu N) data) in
  assign m (combine (tril N) (map (fun p => m (snd p) (fst p)) (tril N))).

(** The object: N, _data, the (label, k) coordinate of every row, inverse_rescaling.
    Both axes carry the same coordinates (lines 638-639, 1119-1120). Coordinates are only compared,
    so integers stand for the floats. attrs are not modelled. *)
Record cov := mkCov { cN : nat; cdata : list X; ccoords : list (Z * Z); cresc : X }.
Variable one : X.
(** covariance_matrix.py:212-237 _setup, and 108-122 __construct_direct__ (inverse_rescaling = 1) *)
Definition construct (N : nat) (data : matrix) (coords : list (Z * Z)) : cov :=
  mkCov N (map (fun p => data (fst p) (snd p)) (triu N)) coords one.
(** covariance_matrix.py:571-576 values *)
Definition values (c : cov) : matrix := condensed_to_full (cdata c) (cN c).
(** covariance_matrix.py:556-562 diag; 376-430 element access C[i, j] *)
Definition getitem (c : cov) (i j : Z) : option X :=
  match contracted_index (cN c) i j with None => None | Some k => nth_error (cdata c) (Z.to_nat k) end.
Fixpoint opt_all (A : Type) (l : list (option A)) : option (list A) :=
  match l with [] => Some [] | None :: _ => None | Some x :: l' => match opt_all l' with None => None | Some r => Some (x :: r) end end.
Definition diag (c : cov) : option (list X) :=
  opt_all (map (fun i => getitem c (Z.of_nat i) (Z.of_nat i)) (seq 0 (cN c))).

(** ** arithmetic, covariance_matrix.py:242-303 *)
Inductive operand := Scalar (x : X) | Matrix (c : cov).
Inductive bop := Add | Sub | Mul | Div.
Variable ev : bop -> X -> X -> X.
Fixpoint zipw (g : X -> X -> X) (a b : list X) : list X :=
  match a, b with x :: a', y :: b' => g x y :: zipw g a' b' | _, _ => [] end.
Definition with_data (c : cov) (d : list X) : cov := mkCov (cN c) d (ccoords c) (cresc c).
(** __add__, __sub__, __mul__, __div__/__truediv__: [None] = AssertionError (shape) or, for the
    product of two matrices, AttributeError (line 273 reads other._datas). *)
Definition arith (o : bop) (c : cov) (b : operand) : option cov :=
  match b with
  | Scalar x => Some (with_data c (map (fun y => ev o y x) (cdata c)))
  | Matrix d => if Nat.eqb (cN c) (cN d)
                then match o with Mul => None | _ => Some (with_data c (zipw (ev o) (cdata c) (cdata d))) end
                else None
  end.
(** x + C, x - C, x * C (lines 250, 261, 277: __radd__, __rsub__, __rmul__ call the straight
    operation); x / C: Python 3 looks for __rtruediv__, which is not defined: TypeError. *)
Definition rarith (o : bop) (x : X) (c : cov) : option cov :=
  match o with Div => None | _ => arith o c (Scalar x) end.

(** ** inverse, covariance_matrix.py:564-569 *)
Variable inv : nat -> matrix -> matrix.     (* np.linalg.inv *)
Variable mulx : X -> X -> X.
Definition inverse (c : cov) : matrix := fun i j => mulx (inv (cN c) (values c) i j) (cresc c).

(** ** trimming *)
(** labels in order of first appearance: pandas Index.unique (indexing.py:167) *)
Fixpoint uniq_from (seen : list Z) (l : list Z) : list Z :=
  match l with [] => [] | x :: l' => if existsb (Z.eqb x) seen then uniq_from seen l' else x :: uniq_from (x :: seen) l' end.
Definition labels (c : cov) : list Z := uniq_from [] (map fst (ccoords c)).
(** MultiIndex.lexsort_depth == 2 (indexing.py:85): the (label, k) pairs are sorted *)
Definition lex_le (a b : Z * Z) : bool := ((fst a <? fst b) || ((fst a =? fst b) && (snd a <=? snd b)))%Z.
Fixpoint lexsorted (l : list (Z * Z)) : bool :=
  match l with [] => true | x :: l' => match l' with [] => true | y :: _ => lex_le x y && lexsorted l' end end.
(** a k bound: None = -inf / +inf *)
Definition ge_lo (lo : option Z) (k : Z) : bool := match lo with None => true | Some a => (a <=? k)%Z end.
Definition le_hi (hi : option Z) (k : Z) : bool := match hi with None => true | Some b => (k <=? b)%Z end.
(** mi.get_locs([label], slice(kmin, kmax)) : both ends of a label slice are included *)
Definition locs (coords : list (Z * Z)) (label : Z) (lo hi : option Z) : list nat :=
  filter (fun p => match nth_error coords p with Some (l, k) => (l =? label)%Z && ge_lo lo k && le_hi hi k | None => false end) (seq 0 (length coords)).
(** np.take(np.take(data, idx, 0), idx, 1) and the coordinates, then __construct_direct__ *)
Definition take (c : cov) (idx : list nat) : cov :=
  construct (length idx) (fun i j => values c (nth i idx 0) (nth j idx 0))
            (map (fun p => nth p (ccoords c) (0%Z, 0%Z)) idx).
Fixpoint block_locs (coords : list (Z * Z)) (ls : list Z) (lo hi : list (option Z)) : list (list nat) :=
  match ls, lo, hi with l :: ls', a :: lo', b :: hi' => locs coords l a b :: block_locs coords ls' lo' hi' | _, _, _ => [] end.
(** covariance_matrix.py:802-838 / 1422-1458 trim_k. [None] = an exception: unsorted index
    (indexing.py:86), a bounds array of the wrong length (line 823), or a block without any row (the
    empty index array has float type, and np.take refuses the concatenation). *)
Definition trim_k (c : cov) (lo hi : list (option Z)) : option cov :=
  let ls := labels c in
  if lexsorted (ccoords c) && Nat.eqb (length lo) (length ls) && Nat.eqb (length hi) (length ls) then
    let bl := block_locs (ccoords c) ls lo hi in
    if forallb (fun b => negb (match b with [] => true | _ => false end)) bl
    then Some (take c (concat bl)) else None
  else None.
(** a scalar bound is broadcast (line 821-824) *)
Definition bcast (c : cov) (v : option Z) : list (option Z) := repeat v (length (labels c)).

(** sel(ell1=trim, ell2=trim) for a list of labels of the matrix (covariance_matrix.py:484-506,
    indexing.py:58 sorts the positions): the rows whose label is listed, in matrix order; a scalar
    result or a non-square one cannot arise here. *)
Definition sel_labels (c : cov) (ls : list Z) : option cov :=
  if lexsorted (ccoords c) then
    Some (take c (filter (fun p => match nth_error (ccoords c) p with Some (l, _) => existsb (Z.eqb l) ls | None => false end)
                         (seq 0 (length (ccoords c)))))
  else None.
End Data.
