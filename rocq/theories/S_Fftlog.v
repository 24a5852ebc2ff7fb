(** Specification of the compiled correlation function integrals. *)
From Coq Require Import Reals List.
From Coquelicot Require Import Coquelicot.
Local Open Scope R_scope.
(** xi = int_0^oo dk/(2 pi^2) k^m j(k r) P(k) *)
Definition xi_integral (m : nat) (j P : R -> R) (r xi : R) : Prop :=
  is_RInt_gen (fun k => k^m * j (k*r) * P k / (2*PI^2)) (at_right 0) (Rbar_locally p_infty) xi.
(** 2^z Gamma((l + 3/2 + z)/2)/Gamma((l + 3/2 - z)/2) at z = q + i eta: the Mellin transform of t J_(l+1/2)(t) = sqrt(2/pi) t^(3/2) j_l(t).
    [lg] is the logarithm of Gamma. *)
Definition modulus_phase (a b : R) : C := (exp a * cos b, exp a * sin b).
Definition bessel_mellin (lg : C -> C) (l q eta : R) : C :=
  let zp := lg ((l + 3/2 + q)/2, eta/2) in let zm := lg ((l + 3/2 - q)/2, - (eta/2)) in
  modulus_phase (ln 2 * q + fst zp - fst zm) (ln 2 * eta + snd zp - snd zm).
(** sum of k^3 P^2 *)
Fixpoint weighted (k P : list R) : R := match k, P with cons x k', cons p P' => x^3 * p^2 + weighted k' P' | _, _ => 0 end.
