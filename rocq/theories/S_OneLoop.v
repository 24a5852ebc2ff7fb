(** * Specification for the one-loop spectra and the two-loop integrals. Nothing here refers to the model. *)
From Coq Require Import Reals List.
From Coquelicot Require Import Coquelicot.
From Verif Require Import S_Kernels S_Kernels2.
Local Open Scope R_scope.

(** The integral over all wavevectors q of f(q, r, k) P1(q) P2(r), r = |k - q|, in bipolar coordinates as in S_Kernels.bipolar,
    with q + r up to 20 *)
Definition both (f : R -> R -> R -> R) (P1 P2 : R -> R) (k x v : R) : R :=
  let q := k / 2 * (exp x - v) in let r := k / 2 * (exp x + v) in exp x * q * r * P1 q * P2 r * f q r k.
Definition bipolar2 (f : R -> R -> R -> R) (P1 P2 : R -> R) (k : R) : R :=
  k / (8 * PI ^ 2) * RInt (fun x => RInt (both f P1 P2 k x) (-1) 1) 0 (ln (2 * 10 / k)).
Definition bipolar2_exists (f : R -> R -> R -> R) (P1 P2 : R -> R) (k : R) : Prop :=
  (forall x, 0 < x < ln (2 * 10 / k) -> ex_RInt (both f P1 P2 k x) (-1) 1) /\
  ex_RInt (fun x => RInt (both f P1 P2 k x) (-1) 1) 0 (ln (2 * 10 / k)).
(** velocity kernels: the coefficients of the powers of the line-of-sight cosine m in the azimuthal averages of
    (n.q/q^2)^2 k^2; of (n.q/q^2)(n.p/p^2) k^2 (coefs_vv) and of its square (coefs_vvvv) *)
Definition coefs_qq (h0 h2 : R -> R -> R -> R) : Prop := forall K a c m, config K a c m ->
  h0 a (third_side K a c) K + h2 a (third_side K a c) K * m ^ 2 = K ^ 2 * azimuthal (fun phi => vq a c m phi ^ 2).
(** the average over all lines of sight *)
Definition over_sky (g : R -> R) : R := RInt g (-1) 1 / 2.
