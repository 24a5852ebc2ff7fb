(** Concrete models on which claims about the galaxy power fail. *)
From Coq Require Import List String Bool Reals Lra.
From Coquelicot Require Import Coquelicot.
From Verif Require Import M_Cache M_Gal M_AP M_GalDeriv S_Gal P_Gal P_AP.
Import ListNotations.
Open Scope R_scope.

Lemma not_partial (pw : gst -> result R) d a s f L D :
  (forall v, pw (seta a v s) = Ok (f v)) -> d = Ok D -> is_derive f (geta a s) L -> D <> L -> ~ is_partial pw a s d.
Proof.
  intros H1 H2 H3 H4 (f' & D' & H5 & H6 & H7). apply H4.
  rewrite H2 in H6. injection H6 as ->.
  apply is_derive_unique in H3.
  assert (H8 : is_derive f (geta a s) D').
  { apply is_derive_ext with (2 := H7). intro t. specialize (H1 t). rewrite H5 in H1. now injection H1. }
  apply is_derive_unique in H8. congruence.
Qed.

(** A two-halo spectrum b b' independent of k and mu, Lorentzian damping. *)
Definition xP (b b' k mu : R) : result R := Ok (b * b').
Definition xP0 (b b' k mu : R) : result R := Ok 0.
Definition xpow (k mu : R) (s : gst) : result R := fst (m_power Lorentzian xP xP0 xP0 k mu s).
Definition xs (drag n fs_ : R) (so : bool) : gst :=
  mkG 1 1 1 1 1 2  1 1 1 1  fs_ (1/2) (1/2) (1/2) 1 1 n  1 1 drag so.

Ltac unfd := cbv beta iota zeta delta [xpow xP xP0 xs m_power d_fs d_fsB d_fcB d_f_so d_NcBs d_NsBsB d_sigma_c d_sigma_so d_alpha_par d_alpha_perp
  m_derivative_k m_derivative_mu
  Pgal_cc Pgal_cAcA Pgal_cAcB Pgal_cBcB Pgal_cs Pgal_cAsA Pgal_cAsB Pgal_cBsA Pgal_cBsB Pgal_ss Pgal_sAsA Pgal_sAsB Pgal_sBsB
  with_preserve kprime muprime ap ap_scale fst snd
  Pgal Pgal_base Pcc Pcc_base Pcc_coef Pcc_deriv Pcs Pcs_base Pss Pss_base PcAcA PcAcB PcBcB PcAsA PcAsB PcBsA PcBsB
  PsAsA PsAsB PsBsB so_wrap damped power_term wsum two_halo one_halo run_leaf call dk dmu coef
  zero_shot_noise so_correction set_biases bind ret get_ set_ get_so geta seta set_so negb
  a_b1 a_b1_bar a_b1_cA a_b1_cB a_b1_sA a_b1_sB a_sigma_c a_sigma_sA a_sigma_sB a_sigma_so
  a_fs a_fcB a_fsB a_f_so a_NcBs a_NsBsB a_N a_par a_perp a_drag use_so].
Lemma id_k k mu : k_AP k mu 1 1 = k. Proof. apply (ap_identity k mu). Qed.
Lemma id_mu mu : mu_AP mu 1 1 = mu. Proof. apply (ap_identity 0). Qed.

Ltac refute := eapply not_partial;
  [ intro v; unfd; reflexivity
  | unfd; reflexivity
  | cbn [geta xs seta a_fs a_fcB a_fsB a_f_so a_NcBs a_NsBsB a_sigma_c a_sigma_so a_par a_perp];
    unfold FOG, FOG_sigma, FOG_k, FOG_mu, kernel, kernel'; auto_derive;
      [rewrite ?id_k, ?id_mu; repeat split; try apply I; lra|reflexivity]
  | rewrite ?id_k, ?id_mu; unfold FOG, FOG_sigma, FOG_k, FOG_mu, kernel, kernel';
    let E := fresh in intro E; apply Rminus_diag_eq in E; field_simplify in E; repeat split; lra ].

Lemma x_fsB : ~ is_partial (xpow 1 0) fsB (xs 1 0 (1/2) false) (fst (d_fsB Lorentzian xP xP0 xP0 1 0 (xs 1 0 (1/2) false))).
Proof. refute. Qed.
Lemma x_fcB : ~ is_partial (xpow 1 0) fcB (xs 2 0 (1/2) true) (fst (d_fcB Lorentzian xP xP0 xP0 1 0 (xs 2 0 (1/2) true))).
Proof. refute. Qed.
Lemma x_f_so_drag : ~ is_partial (xpow 1 0) f_so (xs 2 0 (1/2) true) (fst (d_f_so Lorentzian xP xP0 xP0 1 0 (xs 2 0 (1/2) true))).
Proof. refute. Qed.
Lemma x_f_so_N : ~ is_partial (xpow 1 1) f_so (seta sigma_so 2 (xs 1 1 (1/2) true)) (fst (d_f_so Lorentzian xP xP0 xP0 1 1 (seta sigma_so 2 (xs 1 1 (1/2) true)))).
Proof. refute. Qed.
Lemma x_NcBs : ~ is_partial (xpow 1 0) NcBs (xs 2 0 (1/2) false) (fst (d_NcBs Lorentzian 1 0 (xs 2 0 (1/2) false))).
Proof. refute. Qed.
Lemma x_NsBsB : ~ is_partial (xpow 1 0) NsBsB (xs 2 0 (1/2) false) (fst (d_NsBsB Lorentzian 1 0 (xs 2 0 (1/2) false))).
Proof. refute. Qed.
Lemma x_sigma_c : ~ is_partial (xpow 1 1) sigma_c (xs 2 0 (1/2) true) (fst (d_sigma_c Lorentzian xP xP0 xP0 1 1 (xs 2 0 (1/2) true))).
Proof. refute. Qed.
Lemma x_sigma_so : ~ is_partial (xpow 1 1) sigma_so (xs 2 0 (1/2) true) (fst (d_sigma_so Lorentzian xP xP0 xP0 1 1 (xs 2 0 (1/2) true))).
Proof. refute. Qed.

(** k-derivative with the SO correction and N <> 0 *)
Lemma x_dk : ~ is_deriv (fun t => fst (call (Pgal (FOG Lorentzian) (FOG_k Lorentzian) (FOG_mu Lorentzian) xP xP0 xP0) t 1 (xs 1 1 (1/2) true)))
                 1 (fst (dk (Pgal (FOG Lorentzian) (FOG_k Lorentzian) (FOG_mu Lorentzian) xP xP0 xP0) 1 1 (xs 1 1 (1/2) true))).
Proof.
  intros (f & D & H1 & H2 & H3).
  pose proof (pgal_dk Lorentzian (fun b b' _ _ => b * b') (fun _ _ _ _ => 0) (fun _ _ _ _ => 0) 1 1 (xs 1 0 (1/2) true)
     (or_intror eq_refl)) as H0.
  destruct H0 as (f0 & D0 & K1 & K2 & K3).
  { intros x y. apply (is_derive_const (K := R_AbsRing) (V := R_NormedModule)). }
  assert (E : D = D0).
  { apply is_derive_unique in K3. rewrite <- K3. symmetry. apply is_derive_unique.
    apply is_derive_ext with (2 := H3). intro t. specialize (H1 t); specialize (K1 t).
    revert H1 K1. unfd. intros H1 K1. rewrite H1 in K1. now injection K1. }
  revert E H2 K2. unfd. intros E H2 K2. injection H2 as H2. injection K2 as K2. rewrite <- H2, <- K2 in E. clear - E.
  unfold FOG, FOG_sigma, FOG_k, FOG_mu, kernel, kernel' in E. apply Rminus_diag_eq in E. field_simplify in E; repeat split; lra.
Qed.



