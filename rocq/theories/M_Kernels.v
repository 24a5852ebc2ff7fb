(** * The second-order perturbation theory integrals: a model of pyRSD/_gcl/cpp/Imn.cpp and Kmn.cpp
    Arithmetic is exact and the adaptive cubature Integrate<2> is the exact iterated integral over the rectangle
    (its tolerances are not modelled). pow2, pow3, pow4 (Common.h) are powers. [error] aborts the process: None. *)
From Coq Require Import Reals ZArith.
From Coquelicot Require Import Coquelicot.
Local Open Scope R_scope.

(** ** Kmn.cpp:22-57 *)
Definition F2 (u v : R) : R := let u2 := u * u in let v2 := v * v in (8 + 6 * v2 + u2 * (6 - 20 * v2)) / (7 * (u2 - v2) ^ 2).
Definition G2 (u v : R) : R := let u2 := u * u in let v2 := v * v in - ((2 * (-8 + u2 + v2 + 6 * u2 * v2)) / (7 * (u2 - v2) ^ 2)).
Definition S2 (u v : R) : R := let u2 := u * u in let v2 := v * v in (2 * (6 + u2 * u2 - 6 * v2 + v2 * v2 + u2 * (-6 + 4 * v2))) / (3 * (u2 - v2) ^ 2).
Definition h03 (u v : R) : R := let u2 := u * u in let v2 := v * v in 2 * (-1 + u2) * (-1 + v2) / (u2 - v2) ^ 2.
Definition h04 (u v : R) : R := let u2 := u * u in let v2 := v * v in 2 * (1 + v2 + u2 * (1 - 3 * v2)) / (u2 - v2) ^ 2.
(** Kmn.cpp:60-112 *)
Definition k00 (u v : R) : R := F2 u v.
Definition k00s (u v : R) : R := F2 u v * S2 u v.
Definition k01 (u v : R) : R := 1.
Definition k01s (u v : R) : R := S2 u v ^ 2.
Definition k02s (u v : R) : R := S2 u v.
Definition k10 (u v : R) : R := G2 u v.
Definition k10s (u v : R) : R := G2 u v * S2 u v.
Definition k11 (u v : R) : R := (2 - 2 * u * v) / (u - v) ^ 2.
Definition k11s (u v : R) : R := (2 - 2 * u * v) / (u - v) ^ 2 * S2 u v.
Definition k20_a (u v : R) : R := h03 u v.
Definition k20s_a (u v : R) : R := S2 u v * h03 u v.
Definition k20_b (u v : R) : R := h04 u v.
Definition k20s_b (u v : R) : R := S2 u v * h04 u v.

(** ** Imn.cpp:26-123 *)
Definition f00 (u v : R) : R := 4 * (4 + 3 * v * v + u * u * (3 - 10 * v * v)) ^ 2 / (49 * (u * u - v * v) ^ 4).
Definition f01 (u v : R) : R := let u2 := u * u in let v2 := v * v in (4 * (-8 + v2 + u2 * (1 + 6 * v2)) * (-4 - 3 * v2 + u2 * (-3 + 10 * v2))) / (49 * (u2 - v2) ^ 4).
Definition f02 (u v : R) : R := let u2 := u * u in let v2 := v * v in - ((8 * (-1 + u2) * (-1 + v2) * (-4 - 3 * v2 + u2 * (-3 + 10 * v2))) / (7 * (u2 - v2) ^ 4)).
Definition f03 (u v : R) : R := (8 * (-1 + u * u) * (-1 + 3 * u * v) * (-1 + v * v)) / ((u - v) ^ 4 * (u + v) ^ 2).
Definition f10 (u v : R) : R := (4 * (-1 + u * v) * (-4 - 3 * v * v + u * u * (-3 + 10 * v * v))) / (7 * (u - v) ^ 4 * (u + v) ^ 2).
Definition f11 (u v : R) : R := let u2 := u * u in let v2 := v * v in (4 * (-8 + u2 + v2 + 6 * u2 * v2) ^ 2) / (49 * (u2 - v2) ^ 4).
Definition f12 (u v : R) : R := let u2 := u * u in let v2 := v * v in - ((8 * (-1 + u2) * (-1 + v2) * (-8 + u2 + v2 + 6 * u2 * v2)) / (7 * (u2 - v2) ^ 4)).
Definition f13 (u v : R) : R := let u2 := u * u in let v2 := v * v in (8 * (v2 + u2 * (1 - 2 * v2) + u ^ 3 * v * (-2 + 3 * v2) + u * (v - 2 * v ^ 3))) / ((u - v) ^ 4 * (u + v) ^ 2).
Definition f20 (u v : R) : R := let u2 := u * u in let v2 := v * v in (8 * (-1 - v2 + u2 * (-1 + 3 * v2)) * (-4 - 3 * v2 + u2 * (-3 + 10 * v2))) / (7 * (u2 - v2) ^ 4).
Definition f21 (u v : R) : R := let u2 := u * u in let v2 := v * v in (8 * (-1 - v2 + u2 * (-1 + 3 * v2)) * (-8 + v2 + u2 * (1 + 6 * v2))) / (7 * (u2 - v2) ^ 4).
Definition f22 (u v : R) : R := (4 * (-1 + u * v) * (-8 + v * v + u * u * (1 + 6 * v * v))) / (7 * (u - v) ^ 4 * (u + v) ^ 2).
Definition f23 (u v : R) : R := let u2 := u * u in let v2 := v * v in (48 * (-1 + u2) ^ 2 * (-1 + v2) ^ 2) / (u2 - v2) ^ 4.
Definition f30 (u v : R) : R := - ((8 * (1 + v * v + u * u * (1 - 3 * v * v) + u ^ 3 * v * (-3 + 5 * v * v) + u * (v - 3 * v ^ 3))) / ((u - v) ^ 4 * (u + v) ^ 2)).
Definition f31 (u v : R) : R := - ((8 * u * (-1 + u * u) * v * (-1 + v * v)) / ((u - v) ^ 4 * (u + v) ^ 2)).
Definition f32 (u v : R) : R := let u2 := u * u in let v2 := v * v in - ((16 * (-1 + u2) * (-1 + v2) * (-1 - 3 * v2 + 3 * u2 * (-1 + 5 * v2))) / (u2 - v2) ^ 4).
Definition f33 (u v : R) : R := (16 * (3 + 2 * v * v + 3 * v ^ 4 + u * u * (2 + 12 * v * v - 30 * v ^ 4) + u ^ 4 * (3 - 30 * v * v + 35 * v ^ 4))) / (u * u - v * v) ^ 4.

(** ** the integrals *)
(** ImnIntegrand, Imn.cpp:125-130 = KmnIntegrand, Kmn.cpp:115-121 *)
Definition integrand (f : R -> R -> R) (P : R -> R) (k logu v : R) : R :=
  let u := exp logu in let q := (k / 2) * (u - v) in let r := (k / 2) * (u + v) in u * q * r * P q * P r * f u v.
(** Integrate<2> over [a0, b0] x [a1, b1] *)
Definition Integrate2 (g : R -> R -> R) (a0 a1 b0 b1 : R) : R := RInt (fun x => RInt (fun y => g x y) a1 b1) a0 b0.
Definition QMAX : R := 10 ^ 5.
(** ComputeIntegral, Imn.cpp:132-152 *)
Definition I_integral (f : R -> R -> R) (symmetric : bool) (P : R -> R) (k : R) : R :=
  if Rle_dec k 0 then 0 else
  let umax := 2 * QMAX / k in
  let V := k / (8 * PI * PI) in
  let posv := V * Integrate2 (integrand f P k) (ln 1) 0 (ln umax) 1 in
  if symmetric then 2 * posv
  else let negv := V * Integrate2 (integrand f P k) (ln 1) (-1) (ln umax) 0 in posv + negv.
(** ComputeIntegral, Kmn.cpp:123-145 *)
Definition K_integral (f : R -> R -> R) (symmetric : bool) (P : R -> R) (k : R) : R :=
  if Rle_dec k 0 then 0 else
  let umax := 2 * QMAX / k in
  let V := k / (4 * PI * PI) in
  if symmetric then V * Integrate2 (integrand f P k) (ln 1) 0 (ln umax) 1
  else (1/2) * V * Integrate2 (integrand f P k) (ln 1) (-1) (ln umax) 1.
(** Imn::Evaluate, Imn.cpp:163-202: switch (4*m + n) *)
Definition I_eval (P : R -> R) (k : R) (m n : Z) : option R :=
  match (4 * m + n)%Z with
  | 0%Z => Some (I_integral f00 true P k) | 1%Z => Some (I_integral f01 true P k) | 2%Z => Some (I_integral f02 true P k) | 3%Z => Some (I_integral f03 false P k)
  | 4%Z => Some (I_integral f10 false P k) | 5%Z => Some (I_integral f11 true P k) | 6%Z => Some (I_integral f12 true P k) | 7%Z => Some (I_integral f13 false P k)
  | 8%Z => Some (I_integral f20 true P k) | 9%Z => Some (I_integral f21 true P k) | 10%Z => Some (I_integral f22 false P k) | 11%Z => Some (I_integral f23 true P k)
  | 12%Z => Some (I_integral f30 false P k) | 13%Z => Some (I_integral f31 false P k) | 14%Z => Some (I_integral f32 true P k) | 15%Z => Some (I_integral f33 true P k)
  | _ => None
  end.
(** Kmn::Evaluate, Kmn.cpp:156-194: switch (2*(3*m + int(tidal)) + n) *)
Definition K_eval (P : R -> R) (k : R) (m n : Z) (tidal : bool) (part : Z) : option R :=
  match (2 * (3 * m + (if tidal then 1 else 0)) + n)%Z with
  | 0%Z => Some (K_integral k00 true P k) | 1%Z => Some (K_integral k01 true P k) | 2%Z => Some (K_integral k00s true P k) | 3%Z => Some (K_integral k01s true P k)
  | 4%Z => Some (K_integral k02s true P k) | 6%Z => Some (K_integral k10 true P k) | 7%Z => Some (K_integral k11 false P k) | 8%Z => Some (K_integral k10s true P k)
  | 9%Z => Some (K_integral k11s false P k)
  | 12%Z => Some (if (part =? 0)%Z then K_integral k20_a true P k else K_integral k20_b true P k)
  | 14%Z => Some (if (part =? 0)%Z then K_integral k20s_a true P k else K_integral k20s_b true P k)
  | _ => None
  end.
