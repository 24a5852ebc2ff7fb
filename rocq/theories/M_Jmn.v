(** * The third-order perturbation theory integrals: a model of pyRSD/_gcl/cpp/Jmn.cpp
    Arithmetic is exact and the adaptive quadrature Integrate<1> is the exact integral. pow2..pow8 (Common.h) are powers, [log]
    is ln, [fabs] is Rabs. [error] aborts the process: None. *)
From Coq Require Import Reals ZArith.
From Coquelicot Require Import Coquelicot.
Local Open Scope R_scope.

Definition logr (r : R) : R := ln ((r + 1) / Rabs (r - 1)).
(** Jmn.cpp:26-35 *)
Definition g00_near (r : R) : R := 1/3024 * (12 / (r * r) - 158 + 100 * r * r - 42 * r ^ 4 + 3 / r ^ 3 * (r * r - 1) ^ 3 * (7 * r * r + 2) * logr r).
Definition g00_far (r : R) : R := -2/3024 * (70 + 125 * r * r - 354 * r ^ 4 + 263 * r ^ 6 + 400 * r ^ 8 - 1008 * r ^ 10 + 5124 * r ^ 12) / (105 * r ^ 12).
Definition g00 (r : R) : R := if Rlt_dec r 60 then g00_near r else g00_far r.
(** Jmn.cpp:38-47 *)
Definition g01_near (r : R) : R := 1/3024 * (24 / (r * r) - 202 + 56 * r * r - 30 * r ^ 4 + 3 / r ^ 3 * (r * r - 1) ^ 3 * (5 * r * r + 4) * logr r).
Definition g01_far (r : R) : R := -2/3024 * (140 - 65 * r * r - 168 * r ^ 4 + 229 * r ^ 6 + 656 * r ^ 8 - 3312 * r ^ 10 + 10500 * r ^ 12) / (105 * r ^ 12).
Definition g01 (r : R) : R := if Rlt_dec r 60 then g01_near r else g01_far r.
(** Jmn.cpp:50-58 *)
Definition g10_near (r : R) : R := 1/1008 * (-38 + 48 * r * r - 18 * r ^ 4 + 9 / r * (r * r - 1) ^ 3 * logr r).
Definition g10_far (r : R) : R := 8/1008 * (-28 - 60 * r * r - 156 * r ^ 4 - 572 * r ^ 6 - 5148 * r ^ 8 + 1001 * r ^ 10) / (5005 * r ^ 10).
Definition g10 (r : R) : R := if Rlt_dec r 60 then g10_near r else g10_far r.
(** Jmn.cpp:61-70 *)
Definition g11_near (r : R) : R := 1/1008 * (12 / (r * r) - 82 + 4 * r * r - 6 * r ^ 4 + 3 / (r * r * r) * (r * r - 1) ^ 3 * (r * r + 2) * logr r).
Definition g11_far (r : R) : R := -2/1008 * (70 - 85 * r * r + 6 * r ^ 4 + 65 * r ^ 6 + 304 * r ^ 8 - 1872 * r ^ 10 + 5292 * r ^ 12) / (105 * r ^ 12).
Definition g11 (r : R) : R := if Rlt_dec r 60 then g11_near r else g11_far r.
(** Jmn.cpp:73-82 *)
Definition g02_near (r : R) : R := 1/224 * (2 / (r * r) * (r * r + 1) * (3 * r ^ 4 - 14 * r * r + 3) - 3 / (r * r * r) * (r * r - 1) ^ 4 * logr r).
Definition g02_far (r : R) : R := -2/224 * (35 - 95 * r * r + 93 * r ^ 4 - 17 * r ^ 6 + 128 * r ^ 8 - 1152 * r ^ 10 + 2688 * r ^ 12) / (105 * r ^ 12).
Definition g02 (r : R) : R := if Rlt_dec r 60 then g02_near r else g02_far r.
(** Jmn.cpp:85-94 *)
Definition g20_near (r : R) : R := 1/672 * (2 / (r * r) * (9 - 109 * r * r + 63 * r ^ 4 - 27 * r ^ 6) + 9 / (r * r * r) * (r * r - 1) ^ 3 * (3 * r * r + 1) * logr r).
Definition g20_far (r : R) : R := -2/672 * (35 + 45 * r * r - 147 * r ^ 4 + 115 * r ^ 6 + 192 * r ^ 8 - 576 * r ^ 10 + 2576 * r ^ 12) / (35 * r ^ 12).
Definition g20 (r : R) : R := if Rlt_dec r 60 then g20_near r else g20_far r.

(** JmnIntegrand, Jmn.cpp:96-100 *)
Definition J_integrand (g : R -> R) (P : R -> R) (k logq : R) : R :=
  let q := exp logq in let r0 := q / k in let r := if Req_EM_T r0 1 then 1 - / 10 ^ 10 else r0 in q * P q * g r.
(** ComputeIntegral, Jmn.cpp:102-110; QMIN, QMAX, Jmn.cpp:13-14 *)
Definition J_integral (g : R -> R) (P : R -> R) (k : R) : R :=
  if Rle_dec k 0 then 0 else
  let q0 := ln (/ 10 ^ 5) in let q1 := ln (10 ^ 5) in
  let V := 1 / (2 * PI * PI) in V * RInt (J_integrand g P k) q0 q1.
(** Jmn::Evaluate, Jmn.cpp:121-140: switch (3*m + n) *)
Definition J_eval (P : R -> R) (k : R) (m n : Z) : option R :=
  match (3 * m + n)%Z with
  | 0%Z => Some (J_integral g00 P k) | 1%Z => Some (J_integral g01 P k) | 2%Z => Some (J_integral g02 P k)
  | 3%Z => Some (J_integral g10 P k) | 4%Z => Some (J_integral g11 P k) | 6%Z => Some (J_integral g20 P k)
  | _ => None
  end.
