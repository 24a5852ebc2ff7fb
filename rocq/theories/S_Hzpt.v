(** Vocabulary for the HZPT models: the last values a history leaves, written independently of the model's state. *)
From Coq Require Import Reals List.
From Verif Require Import M_Hzpt.
Import ListNotations.
Local Open Scope R_scope.

(** sigma8 last given to the container, or to the model of this very term *)
Fixpoint last_s8 (t : term) (d : R) (l : list hop) : R :=
  match l with
  | [] => d
  | HSet8 s :: l' => last_s8 t s l'
  | HModel8 u s :: l' => last_s8 t (match t, u with T00, T00 | T01, T01 | T11, T11 | Thm, Thm => s | _, _ => d end) l'
  | _ :: l' => last_s8 t d l'
  end.
Fixpoint last_f (d : R) (l : list hop) : R := match l with [] => d | HSetF f :: l' => last_f f l' | _ :: l' => last_f d l' end.
Fixpoint last_int (d : bool) (l : list hop) : bool := match l with [] => d | HInterp b :: l' => last_int b l' | _ :: l' => last_int d l' end.
(** every sigma8 in the history is positive *)
Definition positive (l : list hop) : Prop := forall s t, (In (HSet8 s) l -> 0 < s) /\ (In (HModel8 t s) l -> 0 < s).

(** The Pade broadband of arXiv:1501.07512: A0 F(k) (1 + (k R1)^2) / (1 + (k R1h)^2 + (k R2h)^4), F = 1 - 1/(1 + (k R)^2). *)
Definition pade_spec (A0 R_ R1 R1h R2h k : R) : R :=
  A0 * ((k*R_)^2 / (1 + (k*R_)^2)) * ((1 + (k*R1)^2) / (1 + (k*R1h)^2 + (k*R2h)^4)).

From Verif Require Import M_Zel.
(** What a stand-alone Zel'dovich spectrum object (pygcl.ZeldovichP00/P01/P11 built at z = 0 with its low-k form on) returns at k
    after SetSigma8AtZ(s); not-a-number counts as 0. *)
Definition standalone (N : numerics) (c : cosmology) (t : term) (s k : R) : R :=
  match zel_eval N (match t with T00 => P00 | T01 => P01 | T11 => P11 | Thm => P00 end) c (zel_set8 s (Some (zel_new N c 0 true))) k with
  | Some x => x | None => 0 end.
(** The full HZPT spectrum: broadband plus 1, 2f, f^2 or b1 times the Zel'dovich term [z]. *)
Definition total (P : hpars) (t : term) (b1 f s k z : R) : R :=
  broadband P t b1 f s k + match t with T00 => z | T01 => 2*f*z | T11 => f*f*z | Thm => b1*z end.
(** the tabulated values of sigma8 and of k *)
Definition s8_node (i : nat) : R := 3/10 + (7/10) * INR i / 99.
Definition k_node (j : nat) : R := Rpower (5/1000000) (1 - INR j / 299).
