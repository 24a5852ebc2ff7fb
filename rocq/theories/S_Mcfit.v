(** Specification of the integral transforms: logarithmic grids, the integral G(y) = int_0^oo F(x) K(x y) dx/x and the Mellin transform of a kernel. *)
From Coq Require Import Reals List.
From Coquelicot Require Import Coquelicot.
Import ListNotations.
Local Open Scope R_scope.
(** x0, x0 e^D, ..., x0 e^((n-1)D) *)
Definition log_grid (x0 D : R) (n : nat) : list R := map (fun i => x0 * exp (INR i * D)) (seq 0 n).
(** the transform of F with kernel K at y converges to G *)
Definition transforms_to (F K : R -> R) (y G : R) : Prop :=
  is_RInt_gen (fun x => F x * K (x*y) / x) (at_right 0) (Rbar_locally p_infty) G.
(** U is the Mellin transform of K at q + i eta: int_0^oo t^(q - 1 + i eta) K(t) dt *)
Definition mellin_at (K : R -> R) (q eta : R) (U : C) : Prop :=
  is_RInt_gen (fun t => Rpower t (q - 1) * cos (eta * ln t) * K t) (at_right 0) (Rbar_locally p_infty) (Re U) /\
  is_RInt_gen (fun t => Rpower t (q - 1) * sin (eta * ln t) * K t) (at_right 0) (Rbar_locally p_infty) (Im U).
(** Schwarz reflection of log Gamma in the right half plane: log Gamma(conj z) = conj(log Gamma(z)) *)
Definition reflecting (lg : C -> C) : Prop := forall z, 0 < Re z -> lg (Cconj z) = Cconj (lg z).
Definition sum_sq (l : list R) : R := fold_right (fun v s => v^2 + s) 0 l.
(** Gamma(z+1) = z Gamma(z) in the right half plane, for a logarithm of Gamma *)
Definition gamma_recurrence (exp_c : C -> C) (lg : C -> C) : Prop := forall z, 0 < Re z -> exp_c (lg (z + RtoC 1)%C) = (z * exp_c (lg z))%C.
