(** Values of the sub-sample methods; the derivative routines leave the model alone. *)
From Coq Require Import List String Bool Reals Lra.
From Verif Require Import M_Cache M_AP M_Gal M_GalDeriv S_Gal P_Gal P_GalDeriv.
Import ListNotations.
Open Scope R_scope.

Section Y.
Variable g : fog.
Variables P P_k P_mu : R -> R -> R -> R -> R.
Notation PW := (fun x y k mu => Ok (P x y k mu)).
Notation PWk := (fun x y k mu => Ok (P_k x y k mu)).
Notation PWmu := (fun x y k mu => Ok (P_mu x y k mu)).
Notation D f := (f g PW PWk PWmu).

Ltac unfd := cbv beta iota zeta delta [d_fs d_fsB d_fcB d_f_so d_NcBs d_NsBsB d_sigma_c d_sigma_so d_alpha_par d_alpha_perp
  Pgal_cc Pgal_cAcA Pgal_cAcB Pgal_cBcB Pgal_cs Pgal_cAsA Pgal_cAsB Pgal_cBsA Pgal_cBsB Pgal_ss Pgal_sAsA Pgal_sAsB Pgal_sBsB
  with_preserve kprime muprime ap ap_scale fst snd m_power m_derivative_k m_derivative_mu
  Pgal Pgal_base Pcc Pcc_base Pcc_coef Pcc_deriv Pcs Pcs_base Pss Pss_base PcAcA PcAcB PcBcB PcAsA PcAsB PcBsA PcBsB
  PsAsA PsAsB PsBsB so_wrap damped power_term wsum two_halo one_halo run_leaf call dk dmu coef
  zero_shot_noise so_correction set_biases bind ret get_ set_ get_so geta seta set_so negb
  a_b1 a_b1_bar a_b1_cA a_b1_cB a_b1_sA a_b1_sB a_sigma_c a_sigma_sA a_sigma_sB a_sigma_so
  a_fs a_fcB a_fsB a_f_so a_NcBs a_NsBsB a_N a_par a_perp a_drag use_so
  galaxy_power cen_cen cen_sat sat_sat].

Lemma subsample_values k mu s :
  let kp := k_AP k mu (a_perp s) (a_par s) in
  let mup := mu_AP mu (a_perp s) (a_par s) in
  let vol := a_drag s ^ 3 / (a_perp s ^ 2 * a_par s) in
  let G sg := FOG g kp mup sg in
  let Gc := if use_so s then 1 else G (a_sigma_c s) in
  let value m x := m k mu s = (Ok (vol * (x + a_N s)), s) in
  value (D Pgal_cAcA) (Gc ^ 2 * P (a_b1_cA s) (a_b1_cA s) kp mup) /\
  value (D Pgal_cAcB) (Gc ^ 2 * P (a_b1_cA s) (a_b1_cB s) kp mup) /\
  value (D Pgal_cBcB) (Gc ^ 2 * P (a_b1_cB s) (a_b1_cB s) kp mup) /\
  value (D Pgal_cAsA) (G (a_sigma_c s) * G (a_sigma_sA s) * P (a_b1_cA s) (a_b1_sA s) kp mup) /\
  value (D Pgal_cAsB) (G (a_sigma_c s) * G (a_sigma_sB s) * P (a_b1_cA s) (a_b1_sB s) kp mup) /\
  value (D Pgal_cBsA) (G (a_sigma_c s) * G (a_sigma_sA s) * (P (a_b1_cB s) (a_b1_sA s) kp mup + a_NcBs s)) /\
  value (D Pgal_cBsB) (G (a_sigma_c s) * G (a_sigma_sB s) * (P (a_b1_cB s) (a_b1_sB s) kp mup + a_NcBs s)) /\
  value (D Pgal_sAsA) (G (a_sigma_sA s) ^ 2 * P (a_b1_sA s) (a_b1_sA s) kp mup) /\
  value (D Pgal_sAsB) (G (a_sigma_sA s) * G (a_sigma_sB s) * P (a_b1_sA s) (a_b1_sB s) kp mup) /\
  value (D Pgal_sBsB) (G (a_sigma_sB s) ^ 2 * (P (a_b1_sB s) (a_b1_sB s) kp mup + a_NsBsB s)).
Proof.
  destruct s as [? ? ? ? ? ? ? ? ? ? ? ? ? ? ? ? ? ? ? ? u]; destruct u; cbv zeta; unfd; rewrite ?FOG_0;
  repeat (match goal with |- _ /\ _ => split end);
  (match goal with |- (_, ?t) = (_, _) => apply (f_equal (fun x => (Ok x, t))) end; unfold ap_scale, Rdiv; ring).
Qed.

Lemma derivatives_frame k mu s :
  snd (D d_fs k mu s) = s /\ snd (D d_fsB k mu s) = s /\ snd (D d_fcB k mu s) = s /\ snd (D d_f_so k mu s) = s /\
  snd (d_NcBs g k mu s) = s /\ snd (d_NsBsB g k mu s) = s /\ snd (D d_sigma_c k mu s) = s /\ snd (D d_sigma_so k mu s) = s /\
  snd (D d_alpha_par k mu s) = s /\ snd (D d_alpha_perp k mu s) = s.
Proof.
  destruct s as [? ? ? ? ? ? ? ? ? ? ? ? ? ? ? ? ? ? ? ? u]; destruct u; unfd; repeat split.
Qed.
End Y.
