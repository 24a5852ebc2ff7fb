(** The AP gradient fails with the SO correction and N <> 0. *)
From Coq Require Import List String Bool Reals Lra.
From Coquelicot Require Import Coquelicot.
From Verif Require Import M_Cache M_Gal M_AP M_GalDeriv S_Gal P_Gal P_AP P_GalDeriv P_GalX.
Import ListNotations.
Open Scope R_scope.

Lemma const_differentiable (c k mu : R) : differentiable_pt_lim (fun _ _ => c) k mu 0 0.
Proof.
  intro eps. exists eps. intros u v _ _. replace (c - c - (0 * (u - k) + 0 * (v - mu))) with 0 by ring.
  rewrite Rabs_R0. apply Rmult_le_pos; [left; apply cond_pos|].
  apply Rle_trans with (2 := Rmax_l _ _). apply Rabs_pos.
Qed.

Lemma x_alpha_par :
  ~ is_partial (xpow 1 1) alpha_par (xs 1 1 (1/2) true) (fst (d_alpha_par Lorentzian xP xP0 xP0 1 1 (xs 1 1 (1/2) true))).
Proof.
  pose proof (d_alpha_par_ok Lorentzian (fun b b' _ _ => b * b') (fun _ _ _ _ => 0) (fun _ _ _ _ => 0) 1 1 (xs 1 0 (1/2) true)) as H0.
  destruct H0 as (f0 & D0 & K1 & K2 & K3);
    [cbn; lra|cbn; lra|lra|right; reflexivity|intros x y k mu; exact (const_differentiable (x * y) k mu)|].
  eapply not_partial with (f := f0) (L := D0).
  - intro v. rewrite <- K1. unfd. reflexivity.
  - unfd. reflexivity.
  - exact K3.
  - revert K2. unfd. intros K2. injection K2 as K2. rewrite <- K2. clear.
    rewrite !id_k, !id_mu. unfold FOG, FOG_sigma, FOG_k, FOG_mu, kernel, kernel'.
    replace (1 + 1 ^ 2 * (1 / (1 / 1) ^ 2 - 1)) with 1 by field. replace (sqrt 1) with 1 by (symmetry; apply sqrt_1).
    replace (1 + 1 * (1 * 1) * (1 / (1 / 1 * (1 / 1 * 1)) - 1)) with 1 by field.
    replace (sqrt 1) with 1 by (symmetry; apply sqrt_1).
    intro E. apply Rminus_diag_eq in E. field_simplify in E; repeat split; lra.
Qed.
