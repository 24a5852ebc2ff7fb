(** Model of writing parameter files and of the parameters made when reading them:
    /repo/pyRSD/rsdfit/parameters/parameterset.py:107-213 (from_file: the saved '$' texts, the Parameter objects and the sections; the lines are in M_ParamFile),
    221-272 (to_file); parameters/parameter.py:99-155 (valid_keys, __init__: value from fiducial, prior / prior_name), 251-262 (output_value), 511-534
    (to_dict); rsdfit/driver.py:496-510, rsdfit/data/power_measurement.py:990-1003, rsdfit/theory/base.py:129-141, 494-514 (the to_file of driver, data, theory).
    Python's eval and repr, and finiteness of numbers, are oracles. An attribute that is None is the same as an absent one. In the text of a dict the keys
    come in the order of valid_keys. The clipping of values to their bounds at construction is in M_ParamVal and not repeated here; that reading sets the
    name of a parameter to its key (180-205) is not repeated either: names are the keys of the result.
    Not modelled: encoding, evaluation of function modules, the checks of lmfit on names and expressions. *)
From Coq Require Import Bool Ascii String Arith.
From Coq Require Import List.
From Verif Require Import M_ParamFile.
Import ListNotations.
Local Open Scope char_scope.

Definition lit := list_ascii_of_string.
(** Python values: None, dicts with string keys, anything else *)
Inductive pv (A : Type) := NoneV | Plain (a : A) | DictV (kvs : list (str * pv A)).
Arguments NoneV {A}. Arguments Plain {A} a. Arguments DictV {A} kvs.
Fixpoint get {B} (k : str) (l : list (str * B)) : option B := match l with [] => None | (k', v) :: l => if eqs k' k then Some v else get k l end.
Fixpoint mem (k : str) (l : list str) : bool := match l with [] => false | x :: l => eqs x k || mem k l end.
(** parameter.py:99-101 *)
Definition valid_keys : list str := map lit ["name"; "value"; "vary"; "min"; "max"; "expr"; "description"; "fiducial"; "prior_name"; "prior"; "lower"; "upper";
  "mu"; "sigma"; "analytic"]%string.

Section Write.
Context {A : Type}.
Variable truth : bool -> A.                       (* False, True *)
Variable finite : pv A -> bool.
Variable repr : pv A -> str.
Variable eval : list (str * pv A) -> str -> option (pv A).
Variable tostr : pv A -> str.
Variable env : str -> option str.

(** A parameter: its attributes (None if absent), and the text kept for output *)
Record par := { attr : str -> pv A; out : option (pv A) }.
Definition is_none (v : pv A) : bool := match v with NoneV => true | _ => false end.
Definition kw (kvs : list (str * pv A)) (k : string) : pv A := match get (lit k) kvs with Some v => v | None => NoneV end.
Definition or_else (v d : pv A) : pv A := if is_none v then d else v.
(** parameter.py:103-155: Parameter( **kvs ) *)
Definition construct (kvs : list (str * pv A)) : str -> pv A := fun k =>
  if eqs k (lit "value") then or_else (kw kvs "value") (kw kvs "fiducial")
  else if eqs k (lit "prior_name") then match get (lit "prior") kvs with Some v => v | None => kw kvs "prior_name" end
  else if eqs k (lit "prior") then NoneV
  else if eqs k (lit "vary") || eqs k (lit "analytic") then match get k kvs with Some v => v | None => Plain (truth false) end
  else match get k kvs with Some v => v | None => NoneV end.
(** parameterset.py:180-188: a dict all of whose keys are valid is a parameter specification *)
Definition of_value (v : pv A) : str -> pv A :=
  match v with
  | DictV kvs => if forallb (fun kv => mem (fst kv) valid_keys) kvs then construct kvs else construct [(lit "value", v)]
  | _ => construct [(lit "value", v)]
  end.
(** parameter.py:511-534; the duplicate prior_name is one key of the dict *)
Fixpoint to_dict_keys (p : par) (keys : list str) : list (str * pv A) :=
  match keys with
  | [] => []
  | k :: keys =>
    let rest := to_dict_keys p keys in
    if eqs k (lit "description") || eqs k (lit "prior") then rest
    else let v := if eqs k (lit "value") then match out p with Some o => o | None => attr p k end else attr p k in
         if is_none v then rest
         else if (eqs k (lit "min") || eqs k (lit "max")) && negb (finite v) then rest
         else (k, v) :: rest
  end.
Definition to_dict (p : par) : list (str * pv A) := to_dict_keys p valid_keys.
(** parameter.py:251-259: par(output=True) *)
Definition output (p : par) : pv A := match out p with Some o => o | None => attr p (lit "value") end.

(** what is written after the '=' of a parameter *)
Definition shown (as_dict : bool) (p : par) : str := if as_dict then repr (DictV (to_dict p)) else repr (output p).
Record block := { tag : str; header : option str; footer : bool; as_dict : bool; pars : list (str * par) }.
(** sorted(self.items()) *)
Fixpoint str_leb (a b : str) : bool :=
  match a, b with [], _ => true | _ :: _, [] => false
  | x :: a, y :: b => if Ascii.eqb x y then str_leb a b else Nat.leb (nat_of_ascii x) (nat_of_ascii y) end.
Fixpoint insert (e : str * par) (l : list (str * par)) : list (str * par) :=
  match l with [] => [e] | h :: t => if str_leb (fst e) (fst h) then e :: h :: t else h :: insert e t end.
Fixpoint sorted (l : list (str * par)) : list (str * par) := match l with [] => [] | e :: l => insert e (sorted l) end.
Definition dashes : str := "#" :: repeat "-" 79.
Definition entry_line (b : block) (e : str * par) : str := tag b ++ "." :: fst e ++ " " :: "=" :: " " :: shown (as_dict b) (snd e).
(** parameterset.py:252-270; the lines of the file, without their ends *)
Definition block_lines (b : block) : list str :=
  (match header b with Some h => [dashes; "#" :: " " :: h; dashes] | None => [] end)
  ++ (match sorted (pars b) with [] => [[]] | l => map (entry_line b) l end)
  ++ (if footer b then [dashes; []] else []).
(** theory/base.py:502-509: the extra parameters with their descriptions *)
Definition extra_line (e : str * str) : str := lit "theory_extra." ++ fst e ++ lit " =  '" ++ snd e ++ lit "'".
Definition extra_lines (l : list (str * str)) : list str := (match l with [] => [[]] | l => map extra_line l end) ++ [[]].
(** driver.py:496-510, with the blocks driver, data, theory and model *)
Definition driver_file (drv data theory model : list (str * par)) (extras : list (str * str)) : list str :=
  block_lines {| tag := lit "driver"; header := Some (lit "driver_params"); footer := true; as_dict := false; pars := drv |}
  ++ block_lines {| tag := lit "data"; header := Some (lit "data params"); footer := true; as_dict := false; pars := data |}
  ++ block_lines {| tag := lit "theory"; header := Some (lit "theory params"); footer := true; as_dict := true; pars := theory |}
  ++ extra_lines extras
  ++ block_lines {| tag := lit "model"; header := Some (lit "model params"); footer := true; as_dict := false; pars := model |}.

(** parameterset.py:162-176: the texts with a '$', evaluated before the replacement *)
Fixpoint originals (l : list (str * str)) (O : list (str * pv A)) : list (str * pv A) :=
  match l with
  | [] => O
  | (k, t) :: l => originals l (if contains "$" t then match eval [] t with Some v => dict_set (pv A) O k v | None => O end else O)
  end.
(** parameterset.py:107-213 for a single tag: name -> Parameter *)
Fixpoint section (t : str) (O : list (str * pv A)) (D : list (str * pv A)) (s : list (str * par)) : list (str * par) :=
  match D with
  | [] => s
  | (k, v) :: D => section t O D (match attribute [t] k with Some (_, n) => dict_set par s n {| attr := of_value v; out := get k O |} | None => s end)
  end.
Definition read (t : str) (lines : list str) : outcome (list (str * par)) :=
  match read_lines [] lines with
  | Ok l => match eval_items (pv A) eval tostr env [] l with
            | Ok D => Ok (section t (originals l []) D [])
            | ValueError => ValueError | KeyError => KeyError | OutOfFuel => OutOfFuel
            end
  | ValueError => ValueError | KeyError => KeyError | OutOfFuel => OutOfFuel
  end.
End Write.
Arguments par A : clear implicits. Arguments block A : clear implicits.
