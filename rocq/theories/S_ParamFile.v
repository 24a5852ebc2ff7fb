(** * Specification vocabulary for parameter files *)
From Coq Require Import List Bool Ascii String Arith.
From Verif Require Import M_ParamFile.
Import ListNotations.
Open Scope char_scope.

(** A template: plain text, $(name) and $name. *)
Inductive piece := Lit (t : str) | Paren (v : str) | Bare (v : str).
Definition show (p : piece) : str :=
  match p with Lit t => t | Paren v => "$" :: "(" :: v ++ [")"] | Bare v => "$" :: v end.
Definition render (ps : list piece) : str := flat_map show ps.
(** the characters of a bare name: letters, digits, underscore *)
Definition name_chars : list ascii := list_ascii_of_string "abcdefghijklmnopqrstuvwxyzABCDEFGHIJKLMNOPQRSTUVWXYZ0123456789_".
(** A proper template, followed by the text [tail]: plain text has no '$', a bracketed name no ')', a bare name
    consists of name characters and is maximal; an empty bare name is not followed by the end or by '('. *)
Fixpoint proper (tail : str) (ps : list piece) : Prop :=
  match ps with
  | [] => True
  | Lit t :: r => ~ In "$" t /\ proper tail r
  | Paren v :: r => ~ In ")" v /\ proper tail r
  | Bare v :: r => Forall (fun x => In x name_chars) v /\
                   (match render r ++ tail with [] => v <> [] | c :: _ => ~ In c name_chars /\ (v = [] -> c <> "(") end) /\ proper tail r
  end.
(** what makes a text malformed at its end: a trailing '$', or a bracket that is never closed *)
Definition malformed_end (t : str) : Prop := t = ["$"] \/ exists r, t = "$" :: "(" :: r /\ ~ In ")" r.
(** the value of a piece: $(name) looks in D, then in the environment; $name in D only *)
Definition value (D env : str -> option str) (p : piece) : option str :=
  match p with
  | Lit t => Some t
  | Paren v => match D v with Some x => Some x | None => env v end
  | Bare v => D v
  end.
(** all pieces replaced by their values, or KeyError *)
Fixpoint substituted (D env : str -> option str) (ps : list piece) : outcome str :=
  match ps with
  | [] => Ok []
  | p :: ps => match value D env p with
               | None => KeyError
               | Some x => match substituted D env ps with Ok y => Ok (x ++ y) | e => e end
               end
  end.
Definition raises {A} (o : outcome A) : Prop := o = ValueError \/ o = KeyError.

(** a line holding nothing but blanks, or a comment *)
Definition ignorable (l : str) : Prop := strip l = [] \/ exists r, strip l = "#" :: r.
