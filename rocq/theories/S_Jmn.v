(** * Specification: the standard third-order perturbation theory kernels and their average over directions.
    Nothing here refers to the model. *)
From Coq Require Import Reals.
From Coquelicot Require Import Coquelicot.
From Verif Require Import S_Kernels.
Local Open Scope R_scope.

Definition neg (a : vec) : vec := let '(a1, a2, a3) := a in (- a1, - a2, - a3).
(** beta(a, b) = |a + b|^2 a.b / (2 a^2 b^2) *)
Definition spt_beta (a b : vec) : R := dot (plus a b) (plus a b) * dot a b / (2 * dot a a * dot b b).
(** the recursion relations at third order. In the configuration (k, q, -q) used below the terms with b + c = 0 or a + b = 0 are
    multiplied by F2(q,-q) = G2(q,-q) = 0. *)
Definition spt_F3 (a b c : vec) : R :=
  1/18 * (7 * spt_alpha a (plus b c) * spt_F2 b c + 2 * spt_beta a (plus b c) * spt_G2 b c
          + spt_G2 a b * (7 * spt_alpha (plus a b) c + 2 * spt_beta (plus a b) c)).
Definition spt_G3 (a b c : vec) : R :=
  1/18 * (3 * spt_alpha a (plus b c) * spt_F2 b c + 6 * spt_beta a (plus b c) * spt_G2 b c
          + spt_G2 a b * (3 * spt_alpha (plus a b) c + 6 * spt_beta (plus a b) c)).
(** symmetrised over the three arguments *)
Definition sym3 (F : vec -> vec -> vec -> R) (a b c : vec) : R := (F a b c + F a c b + F b a c + F b c a + F c a b + F c b a) / 6.
(** the average over the cosine between k and q *)
Definition over_cosines (f : R -> R) : R := RInt f (-1) 1 / 2.
