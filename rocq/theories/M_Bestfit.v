(** Model of the tables of best-fit parameters: rsdfit/analysis/bestfit.py (from_info, from_nlopt, from_mcmc, to_info, add_metadata, __finalize__) and
    rsdfit/analysis/driver.py:269-305 (bestfit_params). Cells are the texts written (NaN: None), except in the error columns, which are reals.
    pandas' to_csv(sep=" ") and read_csv(delim_whitespace=True, comment='#') are modelled on lines: fields with a space or a quote are quoted, NaN is
    the empty text, runs of spaces separate fields, short rows are filled with NaN, long rows are errors, a first row longer than the header makes the
    leading columns the index. Line breaks inside cells, numeric type inference and the LaTeX tables are not modelled. *)
From Coq Require Import Ascii String ZArith Reals Arith Bool.
From Coq Require Import List.
Import ListNotations.
Local Open Scope char_scope.

Definition str := list ascii.
Definition lit (s : string) : str := list_ascii_of_string s.
Definition str_eqb (a b : str) : bool := if list_eq_dec ascii_dec a b then true else false.
Definition SP : ascii := " ". Definition QU : ascii := """". Definition HASH : ascii := "#".

(** csv.writer, QUOTE_MINIMAL, delimiter " " *)
Definition needs_quote (s : str) : bool := existsb (fun c => Ascii.eqb c SP || Ascii.eqb c QU) s.
Fixpoint doubled (s : str) : str := match s with [] => [] | c :: t => if Ascii.eqb c QU then QU :: QU :: doubled t else c :: doubled t end.
Definition write_field (s : str) : str := if needs_quote s then QU :: doubled s ++ [QU] else s.
Fixpoint join (l : list str) : str := match l with [] => [] | [s] => s | s :: t => s ++ SP :: join t end.
Definition write_line (l : list str) : str := join (map write_field l).
(** pandas' tokenizer on one line *)
Inductive tstate := Between | InField | InQuoted | QuoteInQuoted.
Fixpoint tok (st : tstate) (cur s : str) : list str :=
  match s with
  | [] => match st with Between => [] | _ => [cur] end
  | c :: t => match st with
    | Between => if Ascii.eqb c SP then tok Between [] t else if Ascii.eqb c HASH then [] else if Ascii.eqb c QU then tok InQuoted [] t else tok InField [c] t
    | InField => if Ascii.eqb c SP then cur :: tok Between [] t else if Ascii.eqb c HASH then [cur] else tok InField (cur ++ [c]) t
    | InQuoted => if Ascii.eqb c QU then tok QuoteInQuoted cur t else tok InQuoted (cur ++ [c]) t
    | QuoteInQuoted => if Ascii.eqb c QU then tok InQuoted (cur ++ [c]) t else if Ascii.eqb c SP then cur :: tok Between [] t else tok InField (cur ++ [c]) t
    end
  end.
Definition tokens (s : str) : list str := tok Between [] s.
(** str.split() *)
Fixpoint wordsf (cur s : str) : list str :=
  match s with
  | [] => match cur with [] => [] | _ => [cur] end
  | c :: t => if Ascii.eqb c SP then match cur with [] => wordsf [] t | _ => cur :: wordsf [] t end else wordsf (cur ++ [c]) t
  end.
Definition words (s : str) : list str := wordsf [] s.

(** Metadata values. Numbers are (type name, text): numeric casts are taken to invert printing. *)
Inductive pyv := PNum (ty text : str) | PStr (s : str) | PBool (b : bool) | PNone.
Definition numeric (ty : str) : bool := existsb (str_eqb ty) [lit "int"; lit "float"; lit "int64"; lit "float64"].
(** type(val).__name__ and str(val) *)
Definition type_name (v : pyv) : str := match v with PNum ty _ => ty | PStr _ => lit "str" | PBool _ => lit "bool" | PNone => lit "NoneType" end.
Definition show (v : pyv) : str := match v with PNum _ t => t | PStr s => s | PBool true => lit "True" | PBool false => lit "False" | PNone => lit "None" end.
(** bestfit.py:286-290: the builtin or numpy type applied to the text; None: TypeError *)
Definition cast (ty text : str) : option pyv :=
  if numeric ty then Some (PNum ty text) else if str_eqb ty (lit "str") then Some (PStr text)
  else if str_eqb ty (lit "bool") then Some (PBool (match text with [] => false | _ => true end)) else None.

Record frame := { f_cols : list str; f_rows : list (str * list (option str)) }.
Definition cell_text (c : option str) : str := match c with Some s => s | None => [] end.
(** bestfit.py:404-409. [old]: what the file held. "# k v type" lines open it in mode 'w'; the table is always appended. *)
Definition meta_line (kv : str * pyv) : str := HASH :: SP :: fst kv ++ SP :: show (snd kv) ++ SP :: type_name (snd kv).
Definition table_lines (f : frame) : list str := write_line ([] :: f_cols f) :: map (fun r => write_line (fst r :: map cell_text (snd r))) (f_rows f).
Definition to_info (old : list str) (meta : list (str * pyv)) (f : frame) : list str :=
  (match meta with [] => old | _ => map meta_line meta end) ++ table_lines f.

Record info := { i_meta : list (str * pyv); i_cols : list str; i_index : list (list str); i_rows : list (list (option str)) }.
Fixpoint dset (d : list (str * pyv)) (k : str) (v : pyv) : list (str * pyv) :=
  match d with [] => [(k, v)] | (k', v') :: t => if str_eqb k k' then (k', v) :: t else (k', v') :: dset t k v end.
(** bestfit.py:280-290 *)
Fixpoint read_meta (lines : list str) (d : list (str * pyv)) : option (list (str * pyv)) :=
  match lines with
  | [] => Some d
  | (c :: l) :: t => if Ascii.eqb c HASH then
        match words l with
        | k :: v :: w => match cast (last (k :: v :: w) []) v with Some x => read_meta t (dset d k x) | None => None end
        | _ => None end
      else read_meta t d
  | [] :: t => read_meta t d
  end.
Definition opt_cell (s : str) : option str := match s with [] => None | _ => Some s end.
Definition pad (w : nat) (l : list str) : list (option str) := map opt_cell l ++ repeat None (w - length l).
(** bestfit.py:292-296: read_csv. None: an exception *)
Definition read_table (lines : list str) : option (list str * list (list str) * list (list (option str))) :=
  match filter (fun l => match l with [] => false | _ => true end) (map tokens lines) with
  | [] => None
  | h :: rows =>
    let w := Nat.max (length h) (match rows with [] => 0 | r :: _ => length r end) in
    let lead := (w - length h)%nat in
    if existsb (fun r => (w <? length r)%nat) rows then None
    else Some (h, map (firstn lead) rows, map (fun r => skipn lead (pad w r)) rows)
  end.
Definition from_info (lines : list str) : option info :=
  match read_meta lines [] with None => None | Some m =>
    match read_table lines with None => None | Some (h, ix, rows) => Some {| i_meta := m; i_cols := h; i_index := ix; i_rows := rows |} end end.

(** bestfit.py:299-333: one row per free, then constrained parameter. [values]: name, text of the best fit, free. Texts of True, False, 1.0. *)
Definition std_cols : list str := map lit ["best_fit"; "median"; "lower_1sigma"; "upper_1sigma"; "lower_2sigma"; "upper_2sigma"; "free"; "scale"; "gt_1sigma"; "gt_2sigma"; "lt_1sigma"; "lt_2sigma"]%string.
Definition from_nlopt (values : list (str * str * bool)) : frame :=
  {| f_cols := std_cols;
     f_rows := map (fun x : str * str * bool => match x with (n, b, free) => (n, [Some b; None; None; None; None; None; Some (if (free : bool) then lit "True" else lit "False"); Some (lit "1.0"); None; None; None; None]) end) values |}.

(** ** error columns *)
Local Open Scope R_scope.
(** What the chains give for a parameter: median and the offsets to the 1 and 2 sigma bounds *)
Record post := { q_best : R; q_median : R; q_lo1 : R; q_hi1 : R; q_lo2 : R; q_hi2 : R }.
(** bestfit.py:335-384 *)
Definition mcmc_row (p : post) : list (string * R) :=
  [("best_fit", q_best p); ("median", q_median p); ("lower_1sigma", q_lo1 p); ("upper_1sigma", q_hi1 p); ("lower_2sigma", q_lo2 p); ("upper_2sigma", q_hi2 p);
   ("scale", 1); ("gt_1sigma", q_median p + q_lo1 p); ("gt_2sigma", q_median p + q_lo2 p); ("lt_1sigma", q_median p + q_hi1 p); ("lt_2sigma", q_median p + q_lo2 p);
   ("sigma", 1/2 * (Rabs (q_lo1 p) + q_hi1 p))]%string.
(** driver.py:249-305: columns zipped with values; [s] the scale of the parameter *)
Definition driver_row (s : R) (p : post) : list (string * R) :=
  let median := q_median p / s in
  combine ["scale"; "best_fit"; "median"; "sigma"; "lower_1sigma"; "upper_1sigma"; "lower_2sigma"; "upper_2sigma"; "gt_1sigma"; "lt_1sigma"; "lt_2sigma"; "gt_2sigma"]%string
    [s; q_best p / s; median; 1/2 * (q_hi1 p / s - q_lo1 p / s); q_lo1 p / s; q_hi1 p / s; q_lo2 p / s; q_hi2 p / s;
     median + q_lo1 p / s; median + q_hi1 p / s; median + q_lo2 p / s; median + q_hi2 p / s].

(** ** metadata and selections: every set has attributes and refers to a list of names (bestfit.py:238-263) *)
Record obj := { o_ref : nat; o_attrs : list (str * pyv) }.
Record store := { s_lists : list (list str); s_objs : list obj }.
Definition get_attr (o : obj) (k : str) : option pyv := match find (fun kv => str_eqb k (fst kv)) (o_attrs o) with Some kv => Some (snd kv) | None => None end.
Fixpoint set_nth {A} (n : nat) (x : A) (l : list A) : list A := match l, n with [], _ => [] | _ :: t, O => x :: t | a :: t, S m => a :: set_nth m x t end.
Definition upd_nth {A} (n : nat) (f : A -> A) (l : list A) : list A := match nth_error l n with Some a => set_nth n (f a) l | None => l end.
Inductive op := New | Select (i : nat) | AddMeta (i : nat) (k : str) (v : pyv).
(** New: __init__ makes a fresh list. Select: the constructor makes a list, then __finalize__ copies the attributes named in the other's list (None if
    missing) and replaces the list by the other's own list object. *)
Definition step (s : store) (o : op) : store :=
  match o with
  | New => {| s_lists := s_lists s ++ [[]]; s_objs := s_objs s ++ [{| o_ref := length (s_lists s); o_attrs := [] |}] |}
  | Select i => match nth_error (s_objs s) i with
      | Some a => {| s_lists := s_lists s; s_objs := s_objs s ++ [{| o_ref := o_ref a;
            o_attrs := map (fun k => (k, match get_attr a k with Some v => v | None => PNone end)) (nth (o_ref a) (s_lists s) []) |}] |}
      | None => s end
  | AddMeta i k v => match nth_error (s_objs s) i with
      | Some a => {| s_lists := upd_nth (o_ref a) (fun l => l ++ [k]) (s_lists s); s_objs := upd_nth i (fun a => {| o_ref := o_ref a; o_attrs := (k, v) :: o_attrs a |}) (s_objs s) |}
      | None => s end
  end.
Definition run (l : list op) : store := fold_left step l {| s_lists := []; s_objs := [] |}.
(** the metadata to_info writes: getattr for every listed name. None: AttributeError (after the file was truncated) *)
Fixpoint gather (o : obj) (names : list str) : option (list (str * pyv)) :=
  match names with [] => Some [] | k :: t => match get_attr o k, gather o t with Some v, Some r => Some ((k, v) :: r) | _, _ => None end end.
Definition metadata (s : store) (i : nat) : option (list (str * pyv)) :=
  match nth_error (s_objs s) i with Some o => gather o (nth (o_ref o) (s_lists s) []) | None => None end.
