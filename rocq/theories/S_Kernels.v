(** * Specification: the standard second-order perturbation theory kernels of two wavevectors.
    Nothing here refers to the model. *)
From Coq Require Import Reals.
From Coquelicot Require Import Coquelicot.
Local Open Scope R_scope.

Definition vec : Type := (R * R * R)%type.
Definition dot (a b : vec) : R := let '(a1, a2, a3) := a in let '(b1, b2, b3) := b in a1 * b1 + a2 * b2 + a3 * b3.
Definition plus (a b : vec) : vec := let '(a1, a2, a3) := a in let '(b1, b2, b3) := b in (a1 + b1, a2 + b2, a3 + b3).
Definition minus (a b : vec) : vec := let '(a1, a2, a3) := a in let '(b1, b2, b3) := b in (a1 - b1, a2 - b2, a3 - b3).
Definition len (a : vec) : R := sqrt (dot a a).
Definition zero : vec := (0, 0, 0).

(** density and velocity kernels, and the tidal kernel *)
Definition spt_F2 (a b : vec) : R :=
  5/7 + 1/2 * dot a b * (1 / dot a a + 1 / dot b b) + 2/7 * (dot a b) ^ 2 / (dot a a * dot b b).
Definition spt_G2 (a b : vec) : R :=
  3/7 + 1/2 * dot a b * (1 / dot a a + 1 / dot b b) + 4/7 * (dot a b) ^ 2 / (dot a a * dot b b).
Definition spt_S2 (a b : vec) : R := (dot a b) ^ 2 / (dot a a * dot b b) - 1/3.
(** alpha(q, p) = (q + p).q / q^2 *)
Definition spt_alpha (a b : vec) : R := dot (plus a b) a / dot a a.

(** the coordinates the integrals use: u = (|q|+|p|)/|q+p|, v = (|p|-|q|)/|q+p| *)
Definition cu (q p : vec) : R := (len q + len p) / len (plus q p).
Definition cv (q p : vec) : R := (len p - len q) / len (plus q p).

(** the average over the azimuth of q around k *)
Definition azimuthal (g : R -> R) : R := RInt g 0 (2 * PI) / (2 * PI).
(** k along the third axis, line of sight at cosine m from it, q of length a at cosine c from k and azimuth phi *)
Definition kvec (K : R) : vec := (0, 0, K).
Definition los (m : R) : vec := (sqrt (1 - m * m), 0, m).
Definition qvec (a c phi : R) : vec := (a * sqrt (1 - c * c) * cos phi, a * sqrt (1 - c * c) * sin phi, a * c).

(** The integral of f(q, r, k) P(q) P(r) over all wavevectors q, with q = |q| and r = |k - q|, in bipolar coordinates
    u = (q + r)/k, v = (r - q)/k (d^3q/(2 pi)^3 = k q r/(8 pi^2) du dv), with q + r up to 2 10^5 (x = ln u). *)
Definition bipolar (f : R -> R -> R -> R) (P : R -> R) (k : R) : R :=
  k / (8 * PI ^ 2) * RInt (fun x => RInt (fun v =>
    let q := k / 2 * (exp x - v) in let r := k / 2 * (exp x + v) in exp x * q * r * P q * P r * f q r k) (-1) 1) 0 (ln (2 * 10 ^ 5 / k)).
(** the kernels as functions of the three sides: q.p = (k^2 - q^2 - r^2)/2 *)
Definition side_dot (q r k : R) : R := (k ^ 2 - q ^ 2 - r ^ 2) / 2.
Definition side_F2 (q r k : R) : R := 5/7 + 1/2 * side_dot q r k * (1 / q ^ 2 + 1 / r ^ 2) + 2/7 * side_dot q r k ^ 2 / (q ^ 2 * r ^ 2).
Definition side_G2 (q r k : R) : R := 3/7 + 1/2 * side_dot q r k * (1 / q ^ 2 + 1 / r ^ 2) + 4/7 * side_dot q r k ^ 2 / (q ^ 2 * r ^ 2).
Definition side_S2 (q r k : R) : R := side_dot q r k ^ 2 / (q ^ 2 * r ^ 2) - 1/3.
Definition side_alpha (q r k : R) : R := (q ^ 2 + side_dot q r k) / q ^ 2.

(** the inner and the outer integral exist *)
Definition bipolar_exists (f : R -> R -> R -> R) (P : R -> R) (k : R) : Prop :=
  let g x v := let q := k / 2 * (exp x - v) in let r := k / 2 * (exp x + v) in exp x * q * r * P q * P r * f q r k in
  (forall x, 0 < x < ln (2 * 10 ^ 5 / k) -> ex_RInt (g x) (-1) 1) /\ ex_RInt (fun x => RInt (g x) (-1) 1) 0 (ln (2 * 10 ^ 5 / k)).
(** the two halves r < q and r > q separately *)
Definition bipolar_halves_exist (f : R -> R -> R -> R) (P : R -> R) (k : R) : Prop :=
  let g x v := let q := k / 2 * (exp x - v) in let r := k / 2 * (exp x + v) in exp x * q * r * P q * P r * f q r k in
  (forall x, 0 < x < ln (2 * 10 ^ 5 / k) -> ex_RInt (g x) (-1) 0 /\ ex_RInt (g x) 0 1) /\
  ex_RInt (fun x => RInt (g x) (-1) 0) 0 (ln (2 * 10 ^ 5 / k)) /\ ex_RInt (fun x => RInt (g x) 0 1) 0 (ln (2 * 10 ^ 5 / k)).
