(** What the loop would give if run alone: each call answers what the routine answers with a workspace of its own. *)
From Coq Require Import Reals List Arith.
From Verif Require Import M_Quad M_QuadPar.
Import ListNotations.
Local Open Scope R_scope.
Definition alone (w : ws) (r : req) : option answer := integrate w (r_f r) (r_a r) (r_b r) (r_rel r) (r_abs r).
(** evaluates w p v: run alone with workspace w, program p gives v. *)
Inductive evaluates (w : ws) : prog -> R -> Prop :=
| e_ret v : evaluates w (Ret v) v
| e_call r k ans v : alone w r = Some ans -> evaluates w (k ans) v -> evaluates w (Call r k) v.
(** The thread currently owns the workspace. *)
Definition holds (g : glob) (t id : nat) : Prop := match t_pc (g_thr g t) with POut => False | PHave i => i = id | PLoop i _ => i = id | PRel i _ => i = id end.
