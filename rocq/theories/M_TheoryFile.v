(** Model of how the theory section of a parameter file is laid over the default parameters: /repo/pyRSD/rsdfit/theory/base.py:190-238 (BasePowerParameters.from_file),
    129-188 (from_defaults), 248-266 (is_valid, __setitem__); /repo/pyRSD/rsdfit/parameters/parameter.py:104-147 (Parameter.__init__), 153-166 (_init_bounds), 177-214 (_getval),
    386-402 (constrained), 494-515 (to_dict); /repo/pyRSD/rsdfit/parameters/parameterset.py:349-357 (add), 371-391 (update_param), 425-441 (free_names, constrained_names);
    prepare_params is the one of M_Prep.
    Parameter names are numbers, values rationals; an expression is the list of the names in it.  None stands for a missing bound (infinite).  The fields lower, upper, mu, sigma and
    fiducial are one table of optional numbers.  The evaluation of expressions, descriptions and non-numeric values are not modelled here; the interpretation of the line itself is the
    one of M_ParamFile. *)
From Coq Require Import List Arith QArith Bool.
From Verif Require Import M_Prep.
Import ListNotations.
Local Open Scope nat_scope.

Inductive field := Fiducial | Lower | Upper | Mu | Sigma.
(** the dict on a line: the keys that are given *)
Record line := { l_value : option Q; l_vary : option bool; l_min : option Q; l_max : option Q; l_expr : option (list nat);
                 l_prior : option nat; l_num : field -> option Q; l_analytic : option bool }.
(** a Parameter; [fixed_constraint]: _constrained was set to False *)
Record param := { value : option Q; vary : bool; min : option Q; max : option Q; expr : option (list nat);
                  prior : option nat; num : field -> option Q; analytic : bool; fixed_constraint : bool }.

(** clip to the bounds: parameter.py:156-160, 206-211 *)
Definition clip (lo hi : option Q) (v : Q) : Q :=
  let v := match hi with Some m => if Qle_bool v m then v else m | None => v end in
  match lo with Some m => if Qle_bool m v then v else m | None => v end.
(** Parameter built from the dict of the line: __init__ and _init_bounds, parameter.py:132-147, 153-166 *)
Definition make (l : line) : param :=
  let v0 := match l_value l with Some v => Some v | None => l_num l Fiducial end in
  let v := match v0 with
           | Some v => Some (clip (l_min l) (l_max l) v)
           | None => match l_expr l with
                     | Some _ => None
                     | None => match l_min l with Some m => Some m | None => l_max l end
                     end
           end in
  {| value := v; vary := match l_vary l with Some b => b | None => false end; min := l_min l; max := l_max l; expr := l_expr l;
     prior := l_prior l; num := l_num l; analytic := match l_analytic l with Some b => b | None => false end; fixed_constraint := false |}.
Definition orelse {A} (a b : option A) : option A := match a with Some _ => a | None => b end.
(** params.add of p.to_dict() for a name that is there: update_param, the keys of to_dict that are not None; vary and analytic are never None *)
Definition update_param (d p : param) : param :=
  {| value := orelse (value p) (value d); vary := vary p; min := orelse (min p) (min d); max := orelse (max p) (max d); expr := orelse (expr p) (expr d);
     prior := orelse (prior p) (prior d); num := fun f => orelse (num p f) (num d f); analytic := analytic p; fixed_constraint := fixed_constraint d |}.
Definition table := nat -> option param.
Definition add (t : table) (n : nat) (p : param) : table := upd t n (Some (match t n with Some d => update_param d p | None => p end)).

(** base.py:213-218: the lines of the file, in order; None: RuntimeError of __setitem__ *)
Fixpoint add_lines (valid deprecated : nat -> bool) (names : list nat) (t : table) (file : list (nat * line)) : option (list nat * table) :=
  match file with
  | [] => Some (names, t)
  | (n, l) :: file =>
    if deprecated n then add_lines valid deprecated names t file
    else if mem n names then add_lines valid deprecated names (add t n (make l)) file
    else if valid n then add_lines valid deprecated (names ++ [n]) (add t n (make l)) file
    else None
  end.
Definition expr_of (t : table) (n : nat) : option (list nat) := match t n with Some p => expr p | None => None end.
(** prepare_params: vary is switched off for the parameters with an expression (parameterset.py:303) *)
Definition prepared (p : param) : param :=
  match expr p with
  | Some _ => {| value := value p; vary := false; min := min p; max := max p; expr := expr p; prior := prior p; num := num p; analytic := analytic p; fixed_constraint := fixed_constraint p |}
  | None => p
  end.
Definition is_constrained (p : param) : bool := if fixed_constraint p then false else match expr p with Some _ => true | None => false end.
Definition is_free (p : param) : bool := vary p && negb (is_constrained p).
(** base.py:227-235: constrained parameters without a free dependency *)
Definition varies (t : table) (n : nat) : bool := match t n with Some p => vary p | None => false end.
Definition settle (t : table) (deps : nat -> list nat) (n : nat) (p : param) : param :=
  if is_constrained p && negb (existsb (varies t) (deps n))
  then {| value := value p; vary := false; min := min p; max := max p; expr := expr p; prior := prior p; num := num p; analytic := analytic p; fixed_constraint := true |}
  else p.
Fixpoint settle_all (deps : nat -> list nat) (names : list nat) (t : table) : table :=
  match names with
  | [] => t
  | n :: names => settle_all deps names (match t n with Some p => upd t n (Some (settle t deps n p)) | None => t end)
  end.
(** from_file *)
Definition from_file (fuel : nat) (valid deprecated : nat -> bool) (default_names : list nat) (defaults : table) (file : list (nat * line)) : option (list nat * table) :=
  match add_lines valid deprecated default_names defaults file with
  | None => None
  | Some (names, t) =>
    let t := fun n => option_map prepared (t n) in
    match prepare names (expr_of t) fuel with
    | None => None
    | Some ps => Some (names, settle_all (deps ps) names t)
    end
  end.
(** Parameter.value of a parameter without expression: parameter.py:193-214 *)
Definition read (p : param) : option Q := if vary p then option_map (clip (min p) (max p)) (value p) else value p.
Definition free_names (names : list nat) (t : table) : list nat := filter (fun n => match t n with Some p => is_free p | None => false end) names.
Definition constrained_names (names : list nat) (t : table) : list nat := filter (fun n => match t n with Some p => is_constrained p | None => false end) names.
