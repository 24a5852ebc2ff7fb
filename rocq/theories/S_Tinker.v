(** * Vocabulary for halo mass, bias and velocity dispersion *)
From Coq Require Import Reals List.
Import ListNotations.
From Verif Require Import M_Tinker.
Local Open Scope R_scope.

(** Tinker et al. 2010, Eq. 6 and Table 2: halo bias as a function of the peak height nu, for haloes of mean
    overdensity [dh]; y = log10 dh, x^p = exp(p ln x), delta_c = 1.686. *)
Definition tinker_2010 (dh nu : R) : R :=
  let y := ln dh / ln 10 in
  let e := exp (- ((4 / y) * (4 / y) * (4 / y) * (4 / y))) in
  let up p := exp (p * ln nu) in
  let a := 0.44 * y - 0.88 in
  1 - (1 + 0.24 * y * e) * (up a / (up a + exp (a * ln 1.686))) + 0.183 * up 1.5 + (0.019 + 0.107 * y + 0.19 * e) * up 2.4.

(** the mass in a sphere of radius R at the mean density *)
Definition sphere_mass (c : cosmology) (R M : R) : Prop := 0 < R /\ M = 4 / 3 * PI * R * R * R * rho_bar c.
(** haloes of mass M (M_sun/h) have bias b when the rms density fluctuation in spheres of 8 Mpc/h is s8 *)
Definition has_bias (c : cosmology) (dh s8 b M : R) : Prop :=
  exists R, sphere_mass c R M /\ tinker_2010 dh (1.686 / (s8 / sigma8 c * Sigma c R)) = b.

(** a cosmology whose fluctuations decrease with scale *)
Definition hierarchical (c : cosmology) : Prop :=
  0 < rho_bar c /\ 0 < sigma8 c /\ (forall R, 0 < R -> 0 < Sigma c R) /\ (forall R R', 0 < R -> R < R' -> Sigma c R' < Sigma c R) /\
  (forall R, 0 < R -> continuity_pt (Sigma c) R) /\ 0 < H0 c /\ (forall z, 0 < H_z c z).

(** what is assumed of scipy's brentq, up to the tolerance [tol]: a point within [tol] of a root when the (continuous)
    function does not have the same sign at both ends, ValueError when it does *)
Definition finds_roots (tol : R) (brentq : (R -> R) -> R -> R -> option R) : Prop :=
  forall f a b, a < b -> (forall x, a <= x <= b -> continuity_pt f x) ->
    (f a * f b <= 0 -> exists x r, brentq f a b = Some x /\ a <= x <= b /\ a <= r <= b /\ f r = 0 /\ Rabs (x - r) <= tol) /\
    (0 < f a * f b -> brentq f a b = None).

(** Evrard et al. 2008, line of sight, as a comoving distance in the unit of velocity / H *)
Definition evrard_2008 (E H z M : R) : R := 1082.9 * exp (0.336 * ln (E * M / 1000000000000000)) / sqrt 3 * ((1 + z) / H).

(** nodes of the table: 100 values of sigma8 from 0.3 to 1, 70 biases from 0.9 to 8 *)
Definition s8_node (i : nat) : R := 0.3 + INR i * (0.7 / 99).
Definition b1_node (j : nat) : R := 0.9 + INR j * (7.1 / 69).
(** the same cosmology with a spline for Sigma(R) *)
Definition splined (spline : (R -> R) -> R -> R) (c : cosmology) : cosmology :=
  {| rho_bar := rho_bar c; sigma8 := sigma8 c; Sigma := spline (Sigma c); H_z := H_z c; H0 := H0 c |}.
(** sessions with a model of fixed cosmology *)
Inductive gop := SetZ (z : R) | Ask (s8 b : R).
