(** * Reading parameter files

    /repo/pyRSD/rsdfit/parameters/tools.py:62-122 (replace_vars), 154-165 (verify_line);
    /repo/pyRSD/rsdfit/parameters/parameterset.py:107-213 (ParameterSet.from_file).
    A str is a list of (ASCII) characters.  Python's [eval] is an oracle; function-module imports,
    the construction of Parameter objects from the evaluated values, and reading the file are not modelled. *)
From Coq Require Import List Bool Ascii Arith.
Import ListNotations.
Open Scope char_scope.

Definition str := list ascii.
Definition eqs (a b : str) : bool := if list_eq_dec ascii_dec a b then true else false.
(** s.find(c): the text before and after the first c *)
Fixpoint cut (c : ascii) (s : str) : option (str * str) :=
  match s with
  | [] => None
  | x :: s => if Ascii.eqb x c then Some ([], s) else match cut c s with Some (a, b) => Some (x :: a, b) | None => None end
  end.
Definition contains (c : ascii) (s : str) : bool := match cut c s with Some _ => true | None => false end.
(** tools.py:109-113 *)
Definition var_char (x : ascii) : bool :=
  let n := nat_of_ascii x in
  ((97 <=? n)%nat && (n <=? 122)%nat) || ((65 <=? n)%nat && (n <=? 90)%nat) || ((48 <=? n)%nat && (n <=? 57)%nat) || (n =? 95)%nat.
Fixpoint span (p : ascii -> bool) (s : str) : str * str :=
  match s with [] => ([], []) | x :: s' => if p x then let '(a, b) := span p s' in (x :: a, b) else ([], s) end.

Inductive outcome (A : Type) := Ok (a : A) | ValueError | KeyError | OutOfFuel.
Arguments Ok {A} a. Arguments ValueError {A}. Arguments KeyError {A}. Arguments OutOfFuel {A}.

Section Replace.
Variable D : str -> option str.     (* str(D[var]) *)
Variable env : str -> option str.   (* os.environ *)
(** tools.py:82-122, the while loop; each iteration removes at least the '$' *)
Fixpoint replace_loop (fuel : nat) (s_in s_out : str) : outcome str :=
  match fuel with
  | O => OutOfFuel
  | S fuel =>
    match cut "$" s_in with
    | None => Ok (s_out ++ s_in)
    | Some (a, s) =>
      let s_out := s_out ++ a in
      match s with
      | [] => ValueError                        (* trailing $ *)
      | x :: _ =>
        if Ascii.eqb x "(" then
          match cut ")" s with
          | None => ValueError                  (* unmatched '(' *)
          | Some (b, s) =>
            let var := tl b in                  (* s_in[1:i] *)
            match D var with
            | Some v => replace_loop fuel s (s_out ++ v)
            | None => match env var with Some v => replace_loop fuel s (s_out ++ v) | None => KeyError end
            end
          end
        else
          let '(var, s) := span var_char s in
          match D var with Some v => replace_loop fuel s (s_out ++ v) | None => KeyError end
      end
    end
  end.
Definition replace_vars (s : str) : outcome str := replace_loop (S (length s)) s [].
End Replace.

(** str.strip(): ASCII whitespace *)
Definition is_space (x : ascii) : bool :=
  let n := nat_of_ascii x in ((9 <=? n)%nat && (n <=? 13)%nat) || ((28 <=? n)%nat && (n <=? 32)%nat).
Definition lstrip (p : ascii -> bool) (s : str) : str := snd (span p s).
Definition strip (s : str) : str := rev (lstrip is_space (rev (lstrip is_space s))).
(** s.split(c) *)
Fixpoint split (c : ascii) (s : str) : list str :=
  match s with
  | [] => [[]]
  | x :: s => if Ascii.eqb x c then [] :: split c s
              else match split c s with p :: ps => (x :: p) :: ps | [] => [[x]] end
  end.
(** tools.py:154-165 with length 2: None = skip the line *)
Definition verify_line (parts : list str) : outcome (option (str * str)) :=
  match parts with
  | [] => Ok None
  | [] :: _ => Ok None
  | [k] => ValueError
  | [k; v] => Ok (Some (k, v))
  | _ => ValueError
  end.
Definition is_sp (x : ascii) : bool := Ascii.eqb x " ".
(** parameterset.py:136-160, one line of the file; returns the pending text and the item read *)
Definition read_line (old raw : str) : outcome (str * option (str * str)) :=
  let line := strip raw in
  match line with
  | [] => Ok (old, None)
  | x :: _ =>
    if Ascii.eqb x "#" then Ok (old, None)
    else let line := hd [] (split "#" line) in
         match split "\" line with
         | s0 :: _ :: _ => Ok (old ++ " " :: s0, None)
         | s => let line := old ++ " " :: hd [] s in
                (* :147-150 leading blanks; a line of blanks only is left as it is *)
                let line := match lstrip is_sp line with [] => line | l => l end in
                match verify_line (map strip (split "=" line)) with
                | Ok it => Ok ([], it)
                | ValueError => ValueError | KeyError => KeyError | OutOfFuel => OutOfFuel
                end
         end
  end.
(** the (key, text) pairs of a file, in order *)
Fixpoint read_lines (old : str) (lines : list str) : outcome (list (str * str)) :=
  match lines with
  | [] => Ok []
  | raw :: lines =>
    match read_line old raw with
    | Ok (old, it) =>
      match read_lines old lines with
      | Ok l => Ok (match it with Some kv => kv :: l | None => l end)
      | e => e
      end
    | ValueError => ValueError | KeyError => KeyError | OutOfFuel => OutOfFuel
    end
  end.

(** s.rsplit(sep) without maxsplit equals s.split(sep): the pieces between the
    occurrences of sep.  (str.rsplit scans from the right; the two differ only for separators that overlap
    themselves, and a separator "tag." whose '.' is its last and only '.' cannot.) *)
Fixpoint prefix (p s : str) : option str :=
  match p, s with
  | [], _ => Some s
  | x :: p, y :: s => if Ascii.eqb x y then prefix p s else None
  | _, [] => None
  end.
Fixpoint split_str (fuel : nat) (sep s : str) : list str :=
  match fuel with
  | O => [s]
  | S fuel =>
    match prefix sep s with
    | Some r => [] :: split_str fuel sep r
    | None => match s with
              | [] => [[]]
              | x :: s' => match split_str fuel sep s' with p :: ps => (x :: p) :: ps | [] => [[x]] end
              end
    end
  end.
(** parameterset.py:189-201: the section and the name of key k, if it matches a tag *)
Fixpoint attribute (tags : list str) (k : str) : option (str * str) :=
  match tags with
  | [] => None
  | t :: tags => match split_str (S (length k)) (t ++ ["."]) k with
                 | [_; b] => Some (t, strip b)
                 | _ => attribute tags k
                 end
  end.

(** parameterset.py:162-181: evaluation of the pairs into the ordered dict D *)
Section Eval.
Variable V : Type.
Variable eval : list (str * V) -> str -> option V.
Variable tostr : V -> str.
Variable env : str -> option str.
Fixpoint lookup (D : list (str * V)) (k : str) : option V :=
  match D with [] => None | (k', v) :: D => if eqs k' k then Some v else lookup D k end.
Fixpoint dict_set (D : list (str * V)) (k : str) (v : V) : list (str * V) :=
  match D with [] => [(k, v)] | (k', v') :: D => if eqs k' k then (k', v) :: D else (k', v') :: dict_set D k v end.
Definition eval_item (D : list (str * V)) (kv : str * str) : outcome (list (str * V)) :=
  let '(k, t) := kv in
  let text := if contains "$" t then
                match eval [] t with                      (* save_orig *)
                | None => ValueError
                | Some _ => replace_vars (fun n => option_map tostr (lookup D n)) env t
                end else Ok t in
  match text with
  | Ok t => match eval D (strip t) with Some v => Ok (dict_set D k v) | None => ValueError end
  | ValueError => ValueError | KeyError => KeyError | OutOfFuel => OutOfFuel
  end.
Fixpoint eval_items (D : list (str * V)) (l : list (str * str)) : outcome (list (str * V)) :=
  match l with
  | [] => Ok D
  | kv :: l => match eval_item D kv with
               | Ok D => eval_items D l
               | ValueError => ValueError | KeyError => KeyError | OutOfFuel => OutOfFuel
               end
  end.
Definition from_file (lines : list str) : outcome (list (str * V)) :=
  match read_lines [] lines with
  | Ok l => eval_items [] l
  | ValueError => ValueError | KeyError => KeyError | OutOfFuel => OutOfFuel
  end.
(** :183-213 the sections *)
Fixpoint sections (tags : list str) (D : list (str * V)) : list (str * str * V) :=
  match D with
  | [] => []
  | (k, v) :: D => match attribute tags k with
                   | Some (t, n) => (t, n, v) :: sections tags D
                   | None => sections tags D
                   end
  end.
End Eval.
