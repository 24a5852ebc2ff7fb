(** * Model of pyRSD/rsdfit/data/power_measurement.py (PowerMeasurement, PowerMeasurements, PowerData),
      of get_kmu_pairs in pyRSD/rsdfit/theory/base.py and of PkmuGrid text files
      (pyRSD/rsd/transfers/__init__.py)

    Reads go straight to the inputs: the memoisation of these objects is the [Cache] machinery that
    M_Cache models and Props_Cache covers. Wavenumbers are only compared, so integers stand for them;
    [None] as an element of a k column is NaN, as a bound it is -inf (kmin) or +inf (kmax). *)
From Coq Require Import List Arith Bool ZArith Lia.
From Verif Require Import M_Cov.
Import ListNotations.
Set Implicit Arguments.
Local Open Scope nat_scope.

Section Data.
Variable X : Type.
Variable junk : nat -> nat -> X.
Variable one : X.

(** ** PowerMeasurement *)
Inductive field := Missing | Same (x : X) | Col (l : list X).   (* None, a scalar, an array *)
(** power_measurement.py:149-188 PowerMeasurement.__init__ *)
Record meas := mkMeas { m_k : list (option Z); m_power : list X; m_error : field; m_mu : field;
                        m_kmin : option Z; m_kmax : option Z }.
(** 272-276 _trim_idx; a comparison with NaN is false *)
Definition in_range (lo hi : option Z) (k : option Z) : bool :=
  match k with None => false | Some k => ge_lo lo k && le_hi hi k end.
Definition trim_idx (m : meas) : list bool := map (in_range (m_kmin m) (m_kmax m)) (m_k m).
(** numpy indexing with a boolean array: IndexError ([None]) unless the lengths agree *)
Fixpoint pick (A : Type) (mask : list bool) (l : list A) : list A :=
  match mask, l with b :: mask', x :: l' => if b then x :: pick mask' l' else pick mask' l' | _, _ => [] end.
Definition mask_col (A : Type) (mask : list bool) (l : list A) : option (list A) :=
  if Nat.eqb (length mask) (length l) then Some (pick mask l) else None.
(** 279-318 k, mu, power, error, size. Reading the error of a measurement without errors raises. *)
Definition rd_k (m : meas) : option (list (option Z)) := mask_col (trim_idx m) (m_k m).
Definition rd_power (m : meas) : option (list X) := mask_col (trim_idx m) (m_power m).
Definition rd_error (m : meas) : option field :=
  match m_error m with Missing => None | Same x => Some (Same x) | Col l => option_map Col (mask_col (trim_idx m) l) end.
Definition rd_mu (m : meas) : option field :=
  match m_mu m with Missing => Some Missing | Same x => Some (Same x) | Col l => option_map Col (mask_col (trim_idx m) l) end.
Definition rd_size (m : meas) : option nat := option_map (@length _) (rd_k m).
(** 233-248 the kmin and kmax setters *)
Definition set_m_kmin (m : meas) (v : option Z) : meas := mkMeas (m_k m) (m_power m) (m_error m) (m_mu m) v (m_kmax m).
Definition set_m_kmax (m : meas) (v : option Z) : meas := mkMeas (m_k m) (m_power m) (m_error m) (m_mu m) (m_kmin m) v.
Definition set_m_error (m : meas) (e : field) : meas := mkMeas (m_k m) (m_power m) e (m_mu m) (m_kmin m) (m_kmax m).
Inductive mop := MKmin (v : option Z) | MKmax (v : option Z).
Definition mstep (m : meas) (o : mop) : meas := match o with MKmin v => set_m_kmin m v | MKmax v => set_m_kmax m v end.
Fixpoint mrun (m : meas) (os : list mop) : meas := match os with [] => m | o :: os' => mrun (mstep m o) os' end.

(** ** PowerData *)
Record pd := mkPd { p_ms : list meas; p_cov : cov X; p_ells : option (list Z) }.
(** toret = np.empty(n); toret[:] = val: a scalar or a length-one sequence is repeated *)
Inductive bound := One (v : option Z) | Many (l : list (option Z)).
Definition expand (n : nat) (b : bound) : option (list (option Z)) :=
  match b with
  | One v => Some (repeat v n)
  | Many l => if Nat.eqb (length l) n then Some l else match l with [v] => Some (repeat v n) | _ => None end
  end.
(** covariance_matrix.py:815-826: the two bounds of trim_k are expanded to one per block *)
Definition trim_cov (c : cov X) (lo hi : bound) : option (cov X) :=
  match expand (length (labels c)) lo, expand (length (labels c)) hi with
  | Some lo, Some hi => trim_k junk one c lo hi
  | _, _ => None
  end.
Fixpoint zip_set (f : meas -> option Z -> meas) (ms : list meas) (l : list (option Z)) : list meas :=
  match ms, l with m :: ms', v :: l' => f m v :: zip_set f ms' l' | _, _ => [] end.
(** 691-718 the kmin and kmax setters: the measurements are updated first, then the covariance.
    [false]: an exception; the first component is the state it leaves behind. *)
Definition set_kmin (p : pd) (b : bound) : pd * bool :=
  match expand (length (p_ms p)) b with
  | None => (p, false)
  | Some l =>
      let ms := zip_set set_m_kmin (p_ms p) l in
      match trim_cov (p_cov p) (Many l) (One None) with
      | Some c => (mkPd ms c (p_ells p), true)
      | None => (mkPd ms (p_cov p) (p_ells p), false)
      end
  end.
Definition set_kmax (p : pd) (b : bound) : pd * bool :=
  match expand (length (p_ms p)) b with
  | None => (p, false)
  | Some l =>
      let ms := zip_set set_m_kmax (p_ms p) l in
      match trim_cov (p_cov p) (One None) (Many l) with
      | Some c => (mkPd ms c (p_ells p), true)
      | None => (mkPd ms (p_cov p) (p_ells p), false)
      end
  end.
Inductive pop := PKmin (b : bound) | PKmax (b : bound).
Definition pstep (p : pd) (o : pop) : pd * bool := match o with PKmin b => set_kmin p b | PKmax b => set_kmax p b end.

(** 1080-1117 combined_k, combined_power; concatenation over the measurements, in order *)
Definition opt_concat (A : Type) (l : list (option (list A))) : option (list A) := option_map (@concat A) (opt_all l).
Definition combined_k (p : pd) : option (list (option Z)) := opt_concat (map rd_k (p_ms p)).
Definition combined_power (p : pd) : option (list X) := opt_concat (map rd_power (p_ms p)).
(** 1136-1143 flat_slices, as (start, stop) pairs *)
Fixpoint cumsum (acc : nat) (l : list nat) : list nat := match l with [] => [] | x :: l' => (acc + x) :: cumsum (acc + x) l' end.
Fixpoint pairs (l : list nat) : list (nat * nat) :=
  match l with a :: l' => match l' with b :: _ => (a, b) :: pairs l' | [] => [] end | [] => [] end.
Definition flat_slices (sizes : list nat) : list (nat * nat) := pairs (0 :: cumsum 0 sizes).
(** a[start:stop] *)
Definition slice (A : Type) (l : list A) (s : nat * nat) : list A := firstn (snd s - fst s) (skipn (fst s) l).
(** theory/base.py:703-721 get_kmu_pairs, for transfers given by their (flatk, flatmu) *)
Fixpoint kmu_slices (start : nat) (ts : list (list X * list X)) : list (nat * nat) :=
  match ts with [] => [] | t :: ts' => (start, start + length (fst t)) :: kmu_slices (start + length (fst t)) ts' end.
Definition get_kmu_pairs (ts : list (list X * list X)) : list X * list X * list (nat * nat) :=
  (concat (map fst ts), concat (map snd ts), kmu_slices 0 ts).

(** 894-902 set_errors_from_cov: variances[m.size*i : m.size*(i+1)]**0.5 *)
Variable sqrtx : X -> X.
Fixpoint errs_from (vars : list X) (i : nat) (ms : list meas) : option (list meas) :=
  match ms with
  | [] => Some []
  | m :: ms' =>
      match rd_size m, errs_from vars (S i) ms' with
      | Some n, Some r => Some (set_m_error m (Col (map sqrtx (slice vars (n * i, n * (i + 1))))) :: r)
      | _, _ => None
      end
  end.
Definition set_errors_from_cov (p : pd) : option pd :=
  match diag (p_cov p) with None => None | Some v => option_map (fun ms => mkPd ms (p_cov p) (p_ells p)) (errs_from v 0 (p_ms p)) end.

(** 904-939 slice_data. Python list indexing accepts negative positions. [p_ells] stands for
    mu_bounds / ells (re-read in the order of usedata, lines 929-934). *)
Definition py_nth (A : Type) (l : list A) (i : Z) : option A :=
  let j := if (i <? 0)%Z then (i + Z.of_nat (length l))%Z else i in
  if (j <? 0)%Z then None else nth_error l (Z.to_nat j).
Fixpoint enum_filter (i : nat) (used : list Z) (ms : list meas) : list meas :=
  match ms with [] => [] | m :: ms' => if existsb (Z.eqb (Z.of_nat i)) used then m :: enum_filter (S i) used ms' else enum_filter (S i) used ms' end.
Definition slice_data (p : pd) (used : list Z) : option pd :=
  match opt_all (map (py_nth (labels (p_cov p))) used) with
  | None => None
  | Some trim =>
      match sel_labels junk one (p_cov p) trim with
      | None => None
      | Some c =>
          match (match p_ells p with
                 | None => Some None
                 | Some v => if Nat.eqb (length v) (length (p_ms p)) then option_map Some (opt_all (map (py_nth v) used)) else Some (Some v)
                 end) with
          | None => None
          | Some e => Some (mkPd (enum_filter 0 used (p_ms p)) c e)
          end
      end
  end.

(** 966-985 rescale_inverse_covar: Ns mocks; the factor is computed by [hart Ns ndim] *)
Variable hart : nat -> nat -> X.
Variable scale_err : X -> X -> X.     (* error * rescaling**(-0.5) *)
Definition rescale_inverse_covar (p : pd) (Ns : nat) : option pd :=
  match Ns with
  | 0 => Some p
  | _ =>
      match combined_power p with
      | None => None
      | Some l =>
          let r := hart Ns (length l) in
          let c := p_cov p in
          Some (mkPd (map (fun m => set_m_error m (match m_error m with Col e => Col (map (fun x => scale_err x r) e) | Same x => Same (scale_err x r) | Missing => Missing end)) (p_ms p))
                     (mkCov (cN c) (cdata c) (ccoords c) r) (p_ells p))
      end
  end.

(** ** plain text *)
(** A structured array of shape (nrow, ncol): element (i, j) is a record. to_plaintext (32-56) stacks
    the columns of the measurements ([np.vstack(...).T]) and writes ravel(order='F'); from_plaintext
    (112-141) reads one record per line and reshapes with order='F'. Numbers go through text:
    [rnd] is reading back what '%.5e' printed. The first two lines carry shape and column names. *)
Variable rnd : X -> X.
(** ravel(order='F') of an array given by its columns: column after column *)
Definition ravelF (A : Type) (cols : list (list A)) : list A := concat cols.
(** reshape((n, m), order='F'): entry (i, j) is element j*n + i of the flat list *)
Definition reshapeF (A : Type) (n m : nat) (d : A) (l : list A) : list (list A) :=
  map (fun j => map (fun i => nth (j * n + i) l d) (seq 0 n)) (seq 0 m).
(** one record: the values of the written columns *)
Definition record_cols (cols : list (list X)) (n : nat) (d : X) : list (list X) :=
  map (fun i => map (fun c => nth i c d) cols) (seq 0 n).
(** a measurement as written: its columns (k, [mu], power, [error]), all of length n *)
Definition to_plaintext (ms : list (list (list X))) (d : X) : option (nat * nat * nat * list (list X)) :=
  match ms with
  | [] => None                                   (* ValueError: empty *)
  | m0 :: _ =>
      let n := match m0 with c :: _ => length c | [] => 0 end in
      let nc := length m0 in
      if forallb (fun m => Nat.eqb (length m) nc && forallb (fun c => Nat.eqb (length c) n) m) ms
      then Some (n, length ms, nc, map (map rnd) (ravelF (map (fun m => record_cols m n d) ms)))
      else None                                  (* a missing column, or np.vstack of unequal lengths *)
  end.
Definition from_plaintext (f : nat * nat * nat * list (list X)) (d : X) : list (list (list X)) :=
  let '(n, m, nc, rows) := f in
  let col c := reshapeF n m d (map (fun r => nth c r d) rows) in       (* data[col] = data0[..., c].reshape *)
  map (fun j => map (fun c => nth j (col c) []) (seq 0 nc)) (seq 0 m).

(** PkmuGrid.to_plaintext / from_plaintext (transfers/__init__.py:34-59): header, k_cen, mu_cen, then
    one line (k, mu, modes) per grid point in row-major order. A line is a list of numbers. *)
Record grid := mkGrid { g_kcen : list X; g_mucen : list X; g_k : list (list X); g_mu : list (list X); g_modes : list (list X) }.
Fixpoint zip3 (a b c : list X) : list (list X) :=
  match a, b, c with x :: a', y :: b', z :: c' => [x; y; z] :: zip3 a' b' c' | _, _, _ => [] end.
Definition grid_lines (g : grid) : nat * nat * list (list X) :=
  (length (g_k g), match g_k g with r :: _ => length r | [] => 0 end,
   map (map rnd) (map (fun x => [x]) (g_kcen g) ++ map (fun x => [x]) (g_mucen g) ++
                  zip3 (concat (g_k g)) (concat (g_mu g)) (concat (g_modes g)))).
(** reshape((Nk, Nmu, 3)) then rollaxis: component c of the grid *)
Fixpoint chunks (A : Type) (nrow ncol : nat) (l : list A) : list (list A) :=
  match nrow with 0 => [] | S r => firstn ncol l :: chunks r ncol (skipn ncol l) end.
Definition grid_read (f : nat * nat * list (list X)) (d : X) : grid :=
  let '(nk, nmu, ls) := f in
  let hd0 (l : list X) := nth 0 l d in
  let body := skipn (nk + nmu) ls in
  let comp c := chunks nk nmu (map (fun l => nth c l d) body) in
  mkGrid (map hd0 (firstn nk ls)) (map hd0 (firstn nmu (skipn nk ls))) (comp 0) (comp 1) (comp 2).
End Data.

(** ** data/tools.py:30-64 h_conversion_factor; [None] = ValueError *)
From Coq Require Import String Reals.
Inductive hop := HDiv | HMul.
Definition h_variables (v : string) : option (hop * nat) :=
  if String.eqb v "wavenumber" then Some (HDiv, 1) else if String.eqb v "distance" then Some (HMul, 1)
  else if String.eqb v "volume" then Some (HMul, 3) else if String.eqb v "power" then Some (HMul, 3) else None.
Definition h_unit_ok (u : string) : bool := String.eqb u "relative" || String.eqb u "absolute".
Definition h_conversion_factor (v u1 u2 : string) (h : R) : option R :=
  if negb (h_unit_ok u1 && h_unit_ok u2) then None
  else match h_variables v with
       | None => None
       | Some (o, e) =>
           if String.eqb u1 u2 then Some 1%R
           else let f := pow (match o with HDiv => (1 / h)%R | HMul => (1 * h)%R end) e in
                if String.eqb u1 "absolute" then Some f else Some (1 / f)%R
       end.
