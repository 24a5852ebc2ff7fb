(** * Marginalised errors from the Fisher matrix

    /repo/pyRSD/rsdfit/driver.py:1112-1161 (jacobian) and 1163-1215 (marginalized_errors), after the parameters have been set and the Fisher matrix has been
    computed.  Names are numbers, floats are reals, matrices are lists of rows; [deriv] is ParameterSet.constraint_derivative at the point ([None]: an
    exception), [inv] numpy.linalg.inv ([None]: LinAlgError). *)
From Coq Require Import List Arith Bool Reals.
Import ListNotations.

(** [x in l], [l.index(x)] *)
Definition isin (x : nat) (l : list nat) : bool := existsb (Nat.eqb x) l.
Fixpoint index_of (x : nat) (l : list nat) : nat := match l with [] => 0 | y :: l => if Nat.eqb x y then 0 else S (index_of x l) end.
(** np.delete(a, idx, axis=0) *)
Definition delete {A} (idx : list nat) (l : list A) : list A :=
  map snd (filter (fun p => negb (isin (fst p) idx)) (combine (seq 0 (length l)) l)).
Fixpoint traverse {A B} (f : A -> option B) (l : list A) : option (list B) :=
  match l with [] => Some [] | x :: l => match f x, traverse f l with Some y, Some ys => Some (y :: ys) | _, _ => None end end.

(** driver.py:1147-1159 *)
Definition jac_entry (free : list nat) (deriv : nat -> nat -> option R) (fr new : nat) : option R :=
  if isin fr free && isin new free then Some (if Nat.eqb fr new then 1 else 0)%R else deriv new fr.
Definition jacobian (free : list nat) (deriv : nat -> nat -> option R) (params : list nat) : option (list (list R)) :=
  traverse (fun fr => traverse (jac_entry free deriv fr) params) free.
Definition sum (l : list R) : R := fold_right Rplus 0%R l.
(** np.dot(J.T, np.dot(C, J))[i, j] *)
Definition transformed (C J : list (list R)) (i j : nat) : R :=
  sum (map (fun rc => nth i (fst rc) 0 * sum (map (fun cb => fst cb * nth j (snd cb) 0) (combine (snd rc) J)))%R (combine J C)).
(** x**0.5: NaN for a negative number, here [None] *)
Definition root (x : R) : option R := if Rlt_dec x 0 then None else Some (sqrt x).
Inductive mres := Errors (e : nat -> nat -> option R) | ValueError | Failed.
(** driver.py:1188-1215; [params] None: all free parameters *)
Definition marginalized (inv : list (list R) -> option (list (list R))) (F : list (list R)) (free : list nat) (deriv : nat -> nat -> option R)
           (params : option (list nat)) (fixed : list nat) : mres :=
  let params := match params with Some p => p | None => free end in
  match jacobian free deriv params with
  | None => Failed
  | Some J =>
    if Nat.eqb (length fixed) 0 then
      match inv F with Some C => Errors (fun i j => root (transformed C J i j)) | None => Failed end
    else if negb (forallb (fun n => isin n free) fixed) then ValueError
    else let indices := map (fun n => index_of n free) fixed in
         match inv (map (delete indices) (delete indices F)) with
         | Some C => Errors (fun i j => root (transformed C (delete indices J) i j))
         | None => Failed
         end
  end.
