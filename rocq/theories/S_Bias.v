(** What the table of nonlinear bias types documents (rsd/nonlinear_biasing.py:10-31, docstrings), by value. *)
From Coq Require Import Reals List.
From Verif Require Import M_Bias.
Local Open Scope R_scope.

(** [value t c fit n b v]: with table [t] and coefficients [c] the second order bias called [n] of tracers with linear bias [b] is [v] *)
Inductive value (t : types) (c : coefs) (fit : name -> R -> R) : name -> R -> R -> Prop :=
| v_default n b : t n = TNone \/ t n = TMap n -> value t c fit n b (fit n b)
| v_vlah_first n b : n = A00 \/ n = A01 -> t n = TVlah -> value t c fit n b (fit n b)
| v_vlah00 n b v : n = B00 \/ n = C00 \/ n = D00 -> t n = TVlah -> value t c fit A00 b v -> value t c fit n b v
| v_vlah01 b v : t B01 = TVlah -> value t c fit A01 b v -> value t c fit B01 b v
| v_poly00 n b c0 c2 c4 : n = A00 \/ n = B00 \/ n = C00 \/ n = D00 -> t n = TPoly -> c n = (c0, c2, c4) -> value t c fit n b (c0 + c2 * b ^ 2 + c4 * b ^ 4)
| v_poly01 n b c0 c1 c2 : n = A01 \/ n = B01 -> t n = TPoly -> c n = (c0, c1, c2) -> value t c fit n b (c0 + c1 * b + c2 * b ^ 2)
| v_map n n' b v : t n = TMap n' -> n' <> n -> value t c fit n' b v -> value t c fit n b v.

(** every bias function depends on no coefficient but its own *)
Definition self_contained (t : types) : Prop :=
  forall n c c' fit b v, c n = c' n -> value t c fit n b v -> value t c' fit n b v.
(** at every moment of the session *)
Definition always_self_contained (lim : nat) (s : state) (os : list op) : Prop :=
  forall os1 os2, os = os1 ++ os2 -> self_contained (tys (run lim s os1)).
(** reading [n] in state [s] gives a function with the documented values *)
Definition reads_right (lim : nat) (s : state) (n : name) : Prop :=
  forall fit b v, value (tys s) (co s) fit n b v -> exists g, fst (get lim s n) = Ok g /\ call fit g b = v.
