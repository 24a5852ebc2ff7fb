(** The unit of the velocity dispersion assigned to a bias (C219). H0 and H_z are in km/s/Mpc (/repo/pyRSD/_gcl/include/ClassEngine.h:75, 139). *)
From Coq Require Import Reals Lra.
From Verif Require Import M_Tinker S_Tinker P_Tinker Props_Tinker.
Local Open Scope R_scope.

(** the line-of-sight dispersion of Evrard et al. in km/s *)
Definition evrard_km_s (E M : R) : R := 1082.9 * exp (0.336 * ln (E * M / 10 ^ 15)) / sqrt 3.
(** a velocity as a comoving distance in Mpc/h: the Hubble flow at z is 100 E(z) km/s for each physical Mpc/h *)
Definition in_Mpc_over_h (E z s : R) : R := s * (1 + z) / (100 * E).
(** Refuted: the dispersion is in Mpc/h.  It is in Mpc: times h = H0/100 it would be. *)
Theorem C219_in_Mpc_refuted : forall brentq spline r s8 b1 v r',
  let E := H_z (r_cosmo r) (r_z r) / H0 (r_cosmo r) in
  sigmav brentq spline r s8 b1 = (Value v, r') -> r_sigmav_0 r = None \/ r_M_0 r = None -> 0 < H0 (r_cosmo r) -> 0 < H_z (r_cosmo r) (r_z r) -> -1 < r_z r ->
  exists M, mass brentq spline r s8 b1 = (Value M, r') /\ 0 < v /\
    v * (H0 (r_cosmo r) / 100) = in_Mpc_over_h E (r_z r) (evrard_km_s E M) /\
    (H0 (r_cosmo r) <> 100 -> v <> in_Mpc_over_h E (r_z r) (evrard_km_s E M)).
Proof.
  intros brentq spline r s8 b1 v r' E H N P0 Pz Z. destruct (C154_dispersion_of_the_mass brentq spline r s8 b1 v r' H) as (M & HM & F).
  assert (V : v = evrard_2008 E (H_z (r_cosmo r) (r_z r)) (r_z r) M) by (destruct (r_sigmav_0 r), (r_M_0 r); try exact F; destruct N; discriminate).
  exists M. split; [exact HM|].
  assert (S3 : 0 < sqrt 3) by (apply sqrt_lt_R0; lra).
  assert (K : 0 < evrard_km_s E M) by (unfold evrard_km_s; apply Rdiv_lt_0_compat; [apply Rmult_lt_0_compat; [lra|apply exp_pos]|exact S3]).
  assert (V2 : v = evrard_km_s E M * ((1 + r_z r) / H_z (r_cosmo r) (r_z r))).
  { rewrite V. unfold evrard_2008, evrard_km_s. replace (10 ^ 15) with 1000000000000000 by lra. reflexivity. }
  assert (Pv : 0 < v) by (rewrite V2; apply Rmult_lt_0_compat; [exact K|apply Rdiv_lt_0_compat; lra]).
  assert (Q : v * (H0 (r_cosmo r) / 100) = in_Mpc_over_h E (r_z r) (evrard_km_s E M)).
  { rewrite V2. unfold in_Mpc_over_h, E at 3. field. split; lra. }
  split; [exact Pv|]. split; [exact Q|]. intros N0 C. rewrite <- Q in C. apply N0. assert (X : H0 (r_cosmo r) / 100 = 1) by (apply (Rmult_eq_reg_l v); lra). lra.
Qed.
Print Assumptions C219_in_Mpc_refuted.
Example C219_nonvacuous : forall spline, exists v r', sigmav bisect spline (new_relation 0 ex_c false None None) 1 (tinker_2010 200 2) = (Value v, r').
Proof. intros spline. destruct (C154_nonvacuous spline) as (v & E & _). destruct (sigmav bisect spline (new_relation 0 ex_c false None None) 1 (tinker_2010 200 2)) as [o r']. cbn in E. subst o. eauto. Qed.
