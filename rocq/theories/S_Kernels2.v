(** * Specification: kernels that are the coefficients, in powers of the cosine m between the line of sight and k, of averages
    over the azimuth of q around k. A kernel is a function of the three sides q, r = |k - q|, k. *)
From Coq Require Import Reals.
From Coquelicot Require Import Coquelicot.
From Verif Require Import S_Kernels.
Local Open Scope R_scope.

Definition third_side (K a c : R) : R := sqrt (K * K + a * a - 2 * K * a * c).
Definition config (K a c m : R) : Prop := 0 < K /\ 0 < a /\ -1 <= c <= 1 /\ -1 <= m <= 1 /\ 0 < K * K + a * a - 2 * K * a * c.
(** n.q / q^2 and n.(k - q) / |k - q|^2 *)
Definition vq (a c m phi : R) : R := dot (los m) (qvec a c phi) / dot (qvec a c phi) (qvec a c phi).
Definition vp (K a c m phi : R) : R :=
  dot (los m) (minus (kvec K) (qvec a c phi)) / dot (minus (kvec K) (qvec a c phi)) (minus (kvec K) (qvec a c phi)).
Definition coefs_vv (h0 h2 : R -> R -> R -> R) : Prop := forall K a c m, config K a c m ->
  h0 a (third_side K a c) K + h2 a (third_side K a c) K * m ^ 2 = K ^ 2 * azimuthal (fun phi => vq a c m phi * vp K a c m phi).
Definition coefs_v_sum (h0 h2 : R -> R -> R -> R) : Prop := forall K a c m, config K a c m ->
  h0 a (third_side K a c) K + h2 a (third_side K a c) K * m ^ 2 = K ^ 2 * azimuthal (fun phi => vq a c m phi * (vq a c m phi + vp K a c m phi)).
Definition coefs_vvv (h1 h3 : R -> R -> R -> R) : Prop := forall K a c m, config K a c m ->
  h1 a (third_side K a c) K * m + h3 a (third_side K a c) K * m ^ 3 = K ^ 3 * azimuthal (fun phi => vq a c m phi ^ 2 * vp K a c m phi).
Definition coefs_vvvv (h0 h2 h4 : R -> R -> R -> R) : Prop := forall K a c m, config K a c m ->
  h0 a (third_side K a c) K + h2 a (third_side K a c) K * m ^ 2 + h4 a (third_side K a c) K * m ^ 4
    = K ^ 4 * azimuthal (fun phi => (vq a c m phi * vp K a c m phi) ^ 2).
