(** * What the galaxy power spectrum is (specification)

    Hand et al. 2017 decomposition into centrals/satellites without (A) and with (B)
    other satellites in their halo, at one point (k,mu): [G sigma] is the FOG damping
    for dispersion sigma, [P b b'] the two-halo spectrum of tracers with these biases. *)
From Coq Require Import Reals.
From Verif Require Import M_Gal.
Open Scope R_scope.

Section Spec.
Variable G : R -> R.
Variable P : R -> R -> R.
Variable s : gst.

Definition cen_cen : R :=
  let U := (1 - a_fcB s) ^ 2 * P (a_b1_cA s) (a_b1_cA s)
           + 2 * a_fcB s * (1 - a_fcB s) * P (a_b1_cA s) (a_b1_cB s)
           + a_fcB s ^ 2 * P (a_b1_cB s) (a_b1_cB s) in
  let Gc := G (a_sigma_c s) in
  let Gso := G (a_sigma_so s) in
  if use_so s
  then ((1 - a_f_so s) * Gc + a_f_so s * Gso) ^ 2 * U + 2 * a_f_so s * a_fcB s * a_NcBs s * Gc * Gso
  else Gc ^ 2 * U.

Definition cen_sat : R :=
  G (a_sigma_c s) *
  ( (1 - a_fcB s) * (1 - a_fsB s) * G (a_sigma_sA s) * P (a_b1_cA s) (a_b1_sA s)
  + (1 - a_fcB s) * a_fsB s       * G (a_sigma_sB s) * P (a_b1_cA s) (a_b1_sB s)
  + a_fcB s * (1 - a_fsB s)       * G (a_sigma_sA s) * (P (a_b1_cB s) (a_b1_sA s) + a_NcBs s)
  + a_fcB s * a_fsB s             * G (a_sigma_sB s) * (P (a_b1_cB s) (a_b1_sB s) + a_NcBs s)).

Definition sat_sat : R :=
    (1 - a_fsB s) ^ 2 * G (a_sigma_sA s) ^ 2 * P (a_b1_sA s) (a_b1_sA s)
  + 2 * a_fsB s * (1 - a_fsB s) * G (a_sigma_sA s) * G (a_sigma_sB s) * P (a_b1_sA s) (a_b1_sB s)
  + a_fsB s ^ 2 * G (a_sigma_sB s) ^ 2 * (P (a_b1_sB s) (a_b1_sB s) + a_NsBsB s).

Definition galaxy_power : R :=
  (1 - a_fs s) ^ 2 * cen_cen + 2 * a_fs s * (1 - a_fs s) * cen_sat + a_fs s ^ 2 * sat_sat.
End Spec.

(** [d] is the partial derivative of the evaluation [pw] with respect to attribute
    [a] at state [s]: [pw] succeeds for every value of the attribute, [d] succeeded,
    and its value is the derivative. *)
From Coquelicot Require Import Coquelicot.
From Verif Require Import M_Cache.
Definition is_partial (pw : gst -> result R) (a : attr) (s : gst) (d : result R) : Prop :=
  exists (f : R -> R) (D : R),
    (forall v, pw (seta a v s) = Ok (f v)) /\ d = Ok D /\ is_derive f (geta a s) D.

(** [d] is the derivative at [x] of an evaluation that succeeds everywhere. *)
Definition is_deriv (pw : R -> result R) (x : R) (d : result R) : Prop :=
  exists (f : R -> R) (D : R), (forall t, pw t = Ok (f t)) /\ d = Ok D /\ is_derive f x D.
