(** * Splitting MPI ranks; names of output files

    /repo/pyRSD/rsdfit/util/mpi_manager.py:5-21 (split_ranks), 56-97 (MPIManager.__enter__);
    /repo/pyRSD/rsdfit/util/rsd_io.py:69-113 (create_output_file).
    Communicators, pools and the creation of the (empty) file beyond its name are not modelled. *)
From Coq Require Import String Ascii ZArith List Bool Arith Decimal DecimalString DecimalNat.
Import ListNotations.
Open Scope list_scope.

(** range(N)[start:end] *)
Definition ranks (N start stop : nat) : list nat := firstn (stop - start) (skipn start (seq 0 N)).
(** mpi_manager.py:13-20, the loop *)
Fixpoint split_loop (N avg : nat) (k i start stop rem : nat) : list (nat * list nat) :=
  match k with
  | O => []
  | S k => let '(stop, rem) := if (rem =? 0)%nat then (stop, rem) else (stop + 1, rem - 1) in
           (i, ranks N start stop) :: split_loop N avg k (i + 1) stop (stop + avg) rem
  end.
(** None: ZeroDivisionError *)
Definition split_ranks (N n : nat) : option (list (nat * list nat)) :=
  if (n =? 0)%nat then None else Some (split_loop N (N / n) n 0 0 (N / n) (N mod n)).

(** mpi_manager.py:64-75 for more than one process: the first rank of every group and the own colour *)
Inductive entered := Entered (roots : list nat) (color : option nat) | IndexError | ZeroDivisionError.
Fixpoint enter_loop (rank : nat) (l : list (nat * list nat)) (roots : list nat) (color : option nat) : entered :=
  match l with
  | [] => Entered roots color
  | (i, rs) :: l => match rs with
                    | [] => IndexError
                    | r0 :: _ => enter_loop rank l (roots ++ [r0]) (if existsb (Nat.eqb rank) rs then Some i else color)
                    end
  end.
Definition enter (N n rank : nat) : entered :=
  match split_ranks N n with None => ZeroDivisionError | Some l => enter_loop rank l [] None end.

(** ** create_output_file *)
Open Scope string_scope.
(** str(n) *)
Definition dec (n : nat) : string := NilEmpty.string_of_uint (Nat.to_uint n).
(** rsd_io.py:77-94: the first part of the name; [field] is the piece taken from the name of the run being restarted *)
Definition outname_base (date tag : string) (chain_number : nat) (field : option string) : string :=
  match field with
  | Some f => date ++ "_" ++ tag ++ "_" ++ f ++ "__"
  | None => date ++ "_" ++ tag ++ "_chain" ++ dec chain_number ++ "__"
  end.
(** os.path.join(folder, base) + str(suffix) + '.npz'; the folder is the directory itself *)
Definition fname (base : string) (suffix : nat) : string := base ++ dec suffix ++ ".npz".
Definition exists_in (dir : list string) (f : string) : bool := existsb (String.eqb f) dir.
(** :96-100: the largest suffix in use.  [suffix_of] is int(files.split('__')[-1].split('.')[0]), None if int fails *)
Section Scan.
Variable suffix_of : string -> option Z.
Fixpoint scan (base : string) (dir : list string) (suffix : nat) : option nat :=
  match dir with
  | [] => Some suffix
  | f :: dir =>
    match String.index 0 base f with
    | None => scan base dir suffix
    | Some _ => match suffix_of f with
                | None => None
                | Some z => scan base dir (if (z >? Z.of_nat suffix)%Z then Z.to_nat z else suffix)
                end
    end
  end.
(** :102-107 *)
Fixpoint probe (fuel : nat) (base : string) (dir : list string) (suffix : nat) : option nat :=
  match fuel with
  | O => None
  | S fuel => if exists_in dir (fname base suffix) then probe fuel base dir (S suffix) else Some suffix
  end.
Inductive created := Created (name : string) (dir : list string) | BadSuffix | OutOfFuel.
(** the name is chosen from the contents [seen]; the file is then created in [dir] *)
Definition choose (base : string) (seen : list string) : option (option nat) :=
  match scan base seen 0 with None => None | Some s => Some (probe (S (List.length seen)) base seen (S s)) end.
Definition create_output_file (base : string) (dir : list string) : created :=
  match choose base dir with
  | None => BadSuffix
  | Some None => OutOfFuel
  | Some (Some s) => Created (fname base s) (fname base s :: dir)
  end.
(** several calls, one after the other *)
Fixpoint create_all (bases : list string) (dir : list string) : option (list string * list string) :=
  match bases with
  | [] => Some ([], dir)
  | b :: bases => match create_output_file b dir with
                  | Created n dir => match create_all bases dir with Some (ns, dir) => Some (n :: ns, dir) | None => None end
                  | _ => None
                  end
  end.
(** two processes running create_output_file at the same time: looking at the directory (:96-107) and creating the file
    (:113, open(name, 'a')) are separate steps *)
Inductive proc := Start | Chosen (n : string) | Done (n : string).
Definition touch (dir : list string) (n : string) : list string := if exists_in dir n then dir else n :: dir.
Inductive pstep (b1 b2 : string) : list string * proc * proc -> list string * proc * proc -> Prop :=
| choose1 dir s q : choose b1 dir = Some (Some s) -> pstep b1 b2 (dir, Start, q) (dir, Chosen (fname b1 s), q)
| choose2 dir s p : choose b2 dir = Some (Some s) -> pstep b1 b2 (dir, p, Start) (dir, p, Chosen (fname b2 s))
| create1 dir n q : pstep b1 b2 (dir, Chosen n, q) (touch dir n, Done n, q)
| create2 dir n p : pstep b1 b2 (dir, p, Chosen n) (touch dir n, p, Done n).
Inductive preach (b1 b2 : string) (dir : list string) : list string * proc * proc -> Prop :=
| preach_start : preach b1 b2 dir (dir, Start, Start)
| preach_step s s' : preach b1 b2 dir s -> pstep b1 b2 s s' -> preach b1 b2 dir s'.
End Scan.
(** text after the last "__" and before the first '.' there; digits only (Python's int also accepts signs, blanks and '_') *)
Fixpoint after_last (s : string) (acc : string) : string :=
  match s with
  | EmptyString => acc
  | String "_" s' => match s' with String "_" s'' => after_last s'' s'' | _ => after_last s' acc end
  | String _ s' => after_last s' acc
  end.
Fixpoint before_dot (s : string) : string :=
  match s with EmptyString => EmptyString | String "." _ => EmptyString | String c s => String c (before_dot s) end.
Definition py_suffix (f : string) : option Z :=
  match before_dot (after_last f f) with
  | EmptyString => None
  | s => option_map (fun u => Z.of_nat (Nat.of_uint u)) (NilEmpty.uint_of_string s)
  end.
