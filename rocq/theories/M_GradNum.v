(** * PkmuGradient.__call__

    /repo/pyRSD/rsd/power/gradient.py:128-216 (serial case, pool=None).
    The state is the vector of free-parameter values held by parameters and model;
    [_update] stores theta, and reading a varied parameter clips it to its bounds
    ([clip], parameter.py:192-197).  [power m] is model.power(k,mu).values for the model
    at m, [ana i m] the analytic derivative of free parameter i; [None]: the call raises. *)
From Coq Require Import List Arith Bool Reals.
From Verif Require Import M_Prep.
Import ListNotations.
Open Scope R_scope.

Definition clip1 (b : R * R) (v : R) : R :=
  let v := if Rlt_dec (snd b) v then snd b else v in if Rlt_dec v (fst b) then fst b else v.
Fixpoint clip (bs : list (R * R)) (th : list R) : list R :=
  match bs, th with b :: bs, v :: th => clip1 b v :: clip bs th | _, _ => th end.
(** row i of theta + identity*epsilon *)
Fixpoint bump (th : list R) (i : nat) (e : R) : list R :=
  match th, i with
  | [], _ => []
  | v :: th, O => (v + e) :: th
  | v :: th, S i => v :: bump th i e
  end.
Definition row := list R.
Definition diff_row (e : R) (a b : row) : row := map (fun ab => (fst ab - snd ab) / (2 * e)) (combine a b).
Inductive out (A : Type) := Ret (a : A) | Raise.
Arguments Ret {A}. Arguments Raise {A}.

Section Call.
Variable bounds : list (R * R).
Variable power : list R -> option row.
Variable ana : nat -> list R -> option row.

(** :171-182 analytic rows, model untouched; rows not computed stay zero *)
Fixpoint ana_rows (num : list nat) (m : list R) (is_ : list nat) (t : nat -> row) : option (nat -> row) :=
  match is_ with
  | [] => Some t
  | i :: is_ => if mem i num then ana_rows num m is_ t
                else match ana i m with Some r => ana_rows num m is_ (upd t i r) | None => None end
  end.
(** :196-197 evaluate the tasks one after the other, :218-228 *)
Fixpoint eval_tasks (ts : list (list R)) : option (list row) :=
  match ts with
  | [] => Some []
  | th :: ts => match power (clip bounds th) with
                | Some r => match eval_tasks ts with Some rs => Some (r :: rs) | None => None end
                | None => None
                end
  end.
(** :206 toret[ii] = ... *)
Fixpoint assign (t : nat -> row) (ii : list nat) (rs : list row) : nat -> row :=
  match ii, rs with i :: ii, r :: rs => assign (upd t i r) ii rs | _, _ => t end.
Definition eps_at (eps : list R) (i : nat) : R := nth i eps 0.

(** Result and final state; the matrix is the list of rows in free_names order. *)
Definition gcall (nk : nat) (m th eps : list R) (num : list nat) : out (list row) * list R :=
  let n := length th in
  match ana_rows num m (seq 0 n) (fun _ => repeat 0 nk) with
  | None => (Raise, m)                       (* before the try block *)
  | Some t =>
    let tasks := map (fun i => bump th i (eps_at eps i)) num ++ map (fun i => bump th i (- eps_at eps i)) num in
    match eval_tasks tasks with
    | None => (Raise, clip bounds th)        (* finally: self._update(theta) *)
    | Some rs =>
      let plus := firstn (length num) rs in
      let minus := skipn (length num) rs in
      let d := map (fun x => diff_row (eps_at eps (fst x)) (fst (snd x)) (snd (snd x))) (combine num (combine plus minus)) in
      (Ret (map (assign t num d) (seq 0 n)), clip bounds th)
    end
  end.
(** :214 [if scalar: toret = toret[0]] *)
Definition gcall_scalar (m th eps : list R) (num : list nat) : out row * list R :=
  match gcall 1 m th eps num with
  | (Ret (r :: _), m') => (Ret r, m')
  | (Ret [], m') => (Raise, m')
  | (Raise, m') => (Raise, m')
  end.
End Call.
