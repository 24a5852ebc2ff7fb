(** * Specification of the parameter-file round trip *)
From Coq Require Import Bool Ascii String.
From Coq Require Import List.
From Verif Require Import M_ParamFile M_ParamWrite.
Import ListNotations.
Local Open Scope char_scope.

(** a Python name *)
Definition identifier (n : str) : Prop := n <> [] /\ forall c, In c n -> In c (list_ascii_of_string "abcdefghijklmnopqrstuvwxyzABCDEFGHIJKLMNOPQRSTUVWXYZ0123456789_").
(** a text that can stand on one line after the '=' : no comment sign, continuation or second '=', no blanks at its ends *)
Definition one_line (t : str) : Prop := strip t = t /\ ~ In "#" t /\ ~ In "\" t /\ ~ In "=" t.

Section Spec.
Context {A : Type}.
Variable truth : bool -> A.
Variable finite : pv A -> bool.
Variable repr : pv A -> str.
Variable eval : list (str * pv A) -> str -> option (pv A).
Variable env : str -> option str.
Definition value_of (p : par A) : pv A := attr p (lit "value").
(** a dict that would be taken for the specification of a parameter *)
Definition specification (v : pv A) : Prop := exists kvs, v = DictV kvs /\ forall k x, In (k, x) kvs -> In k valid_keys.
(** a table of the parameters of sections: their names have a '.' *)
Definition dotted (L : str -> option str) : Prop := forall n, ~ In "." n -> L n = None.
(** A simple parameter whose text means its value in every file: either the literal text of its value, or a text with '$' that refers to the environment only *)
Definition self_contained (p : par A) : Prop :=
  ~ specification (value_of p) /\
  match out p with
  | None => one_line (repr (value_of p)) /\ ~ In "$" (repr (value_of p)) /\ forall D, eval D (repr (value_of p)) = Some (value_of p)
  | Some o => one_line (repr o) /\ In "$" (repr o) /\ eval [] (repr o) = Some o /\
              exists t, (forall L, dotted L -> replace_vars L env (repr o) = Ok t) /\ forall D, eval D (strip t) = Some (value_of p)
  end.
(** A fit parameter as Parameter() makes it; [text] is the dict the writer shows *)
Definition well_formed (p : par A) : Prop :=
  out p = None /\ (value_of p = NoneV -> attr p (lit "fiducial") = NoneV) /\
  attr p (lit "vary") <> NoneV /\ attr p (lit "analytic") <> NoneV /\
  (forall k, k = lit "min" \/ k = lit "max" -> attr p k <> NoneV -> finite (attr p k) = true) /\
  let text := repr (DictV (to_dict finite p)) in
  one_line text /\ ~ In "$" text /\ forall D, eval D text = Some (DictV (to_dict finite p)).
(** the attributes of a fit parameter that a file keeps; its name is its key in the set *)
Definition kept : list string := ["value"; "vary"; "min"; "max"; "expr"; "fiducial"; "prior_name"; "lower"; "upper"; "mu"; "sigma"; "analytic"]%string.
Definition same_value (p q : par A) : Prop := value_of p = value_of q /\ out p = out q.
Definition same_parameter (p q : par A) : Prop := out p = out q /\ forall k, In k kept -> attr p (lit k) = attr q (lit k).
(** the same names, with parameters related by R *)
Definition same_set (R : par A -> par A -> Prop) (s t : list (str * par A)) : Prop :=
  forall n, match get n s, get n t with Some p, Some q => R p q | None, None => True | _, _ => False end.
End Spec.
