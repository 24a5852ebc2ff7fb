(** Components of the galaxy power, kernels' range. *)
From Coq Require Import List String Bool Reals Lra.
From Coquelicot Require Import Coquelicot.
From Verif Require Import M_Cache M_Gal M_AP M_GalDeriv S_Gal P_Gal P_AP.
Import ListNotations.
Open Scope R_scope.

Lemma kernel_range g x : 0 < kernel g x <= 1.
Proof.
  assert (Hx : 0 <= x ^ 2) by apply pow2_ge_0. destruct g; unfold kernel.
  - assert (1 <= (1 + 1 / 2 * x ^ 2) ^ 2) by nra. split.
    + apply Rdiv_lt_0_compat; lra.
    + apply (Rmult_le_reg_r ((1 + 1 / 2 * x ^ 2) ^ 2)); [lra|]. unfold Rdiv. rewrite Rmult_assoc, Rinv_l by lra. lra.
  - split.
    + apply Rdiv_lt_0_compat; lra.
    + apply (Rmult_le_reg_r (1 + 1 / 2 * x ^ 2)); [lra|]. unfold Rdiv at 1. rewrite Rmult_assoc, Rinv_l by lra. lra.
  - split; [apply exp_pos|]. apply Rle_trans with (exp 0); [|rewrite exp_0; lra].
    destruct (Req_dec x 0) as [->|Hn]; [right; f_equal; ring|]. left. apply exp_increasing.
    assert (0 < x ^ 2) by (assert (x ^ 2 <> 0) by (now apply pow_nonzero); lra). lra.
Qed.
Lemma kernel_even g x : kernel g (- x) = kernel g x.
Proof. destruct g; unfold kernel; replace ((- x) ^ 2) with (x ^ 2) by ring; reflexivity. Qed.

Section C.
Variable g : fog.
Variables P P_k P_mu : R -> R -> R -> R -> R.
Notation PW := (fun x y k mu => Ok (P x y k mu)).
Notation PWk := (fun x y k mu => Ok (P_k x y k mu)).
Notation PWmu := (fun x y k mu => Ok (P_mu x y k mu)).
Notation D f := (f g PW PWk PWmu).

Ltac unfd := cbv beta iota zeta delta [m_power
  Pgal_cc Pgal_cAcA Pgal_cAcB Pgal_cBcB Pgal_cs Pgal_cAsA Pgal_cAsB Pgal_cBsA Pgal_cBsB Pgal_ss Pgal_sAsA Pgal_sAsB Pgal_sBsB
  ap ap_scale fst snd
  Pgal Pgal_base Pcc Pcc_base Pcc_coef Pcs Pcs_base Pss Pss_base PcAcA PcAcB PcBcB PcAsA PcAsB PcBsA PcBsB
  PsAsA PsAsB PsBsB so_wrap damped power_term wsum two_halo one_halo run_leaf call dk dmu coef
  zero_shot_noise so_correction set_biases bind ret get_ set_ get_so geta seta set_so negb
  a_b1 a_b1_bar a_b1_cA a_b1_cB a_b1_sA a_b1_sB a_sigma_c a_sigma_sA a_sigma_sB a_sigma_so
  a_fs a_fcB a_fsB a_f_so a_NcBs a_NsBsB a_N a_par a_perp a_drag use_so].

Lemma top_components k mu s : exists cc cs ss,
  D Pgal_cc k mu s = (Ok cc, s) /\ D Pgal_cs k mu s = (Ok cs, s) /\ D Pgal_ss k mu s = (Ok ss, s) /\
  D m_power k mu s = (Ok ((1 - a_fs s) ^ 2 * cc + 2 * a_fs s * (1 - a_fs s) * cs + a_fs s ^ 2 * ss), s).
Proof.
  destruct s as [? ? ? ? ? ? ? ? ? ? ? ? ? ? ? ? n ? ? ? []]; do 3 eexists.
  all: split; [unfd; reflexivity|split; [unfd; reflexivity|split; [unfd; reflexivity|]]]; unfd; f_equal; f_equal; unfold Rdiv; ring.
Qed.

Lemma cs_components k mu s : a_N s = 0 -> exists aa ab ba bb,
  D Pgal_cAsA k mu s = (Ok aa, s) /\ D Pgal_cAsB k mu s = (Ok ab, s) /\ D Pgal_cBsA k mu s = (Ok ba, s) /\ D Pgal_cBsB k mu s = (Ok bb, s) /\
  D Pgal_cs k mu s = (Ok ((1 - a_fcB s) * (1 - a_fsB s) * aa + (1 - a_fcB s) * a_fsB s * ab
                          + a_fcB s * (1 - a_fsB s) * ba + a_fcB s * a_fsB s * bb), s).
Proof.
  intros H. destruct s as [? ? ? ? ? ? ? ? ? ? ? ? ? ? ? ? n ? ? ? u]; cbn in H; subst n. do 4 eexists.
  all: split; [unfd; reflexivity|split; [unfd; reflexivity|split; [unfd; reflexivity|split; [unfd; reflexivity|]]]]; unfd; f_equal; f_equal; unfold Rdiv; ring.
Qed.
Lemma ss_components k mu s : a_N s = 0 -> exists aa ab bb,
  D Pgal_sAsA k mu s = (Ok aa, s) /\ D Pgal_sAsB k mu s = (Ok ab, s) /\ D Pgal_sBsB k mu s = (Ok bb, s) /\
  D Pgal_ss k mu s = (Ok ((1 - a_fsB s) ^ 2 * aa + 2 * a_fsB s * (1 - a_fsB s) * ab + a_fsB s ^ 2 * bb), s).
Proof.
  intros H. destruct s as [? ? ? ? ? ? ? ? ? ? ? ? ? ? ? ? n ? ? ? u]; cbn in H; subst n. do 3 eexists.
  all: split; [unfd; reflexivity|split; [unfd; reflexivity|split; [unfd; reflexivity|]]]; unfd; f_equal; f_equal; unfold Rdiv; ring.
Qed.
Lemma cc_components k mu s : a_N s = 0 -> use_so s = false -> exists aa ab bb,
  D Pgal_cAcA k mu s = (Ok aa, s) /\ D Pgal_cAcB k mu s = (Ok ab, s) /\ D Pgal_cBcB k mu s = (Ok bb, s) /\
  D Pgal_cc k mu s = (Ok ((1 - a_fcB s) ^ 2 * aa + 2 * a_fcB s * (1 - a_fcB s) * ab + a_fcB s ^ 2 * bb), s).
Proof.
  intros H Hu. destruct s as [? ? ? ? ? ? ? ? ? ? ? ? ? ? ? ? n ? ? ? u]; cbn in H, Hu; subst n u. do 3 eexists.
  all: split; [unfd; reflexivity|split; [unfd; reflexivity|split; [unfd; reflexivity|]]]; unfd; f_equal; f_equal; unfold Rdiv; ring.
Qed.

(** equal components *)
Lemma equal_components k mu s p :
  a_sigma_c s = 0 -> a_sigma_sA s = 0 -> a_sigma_sB s = 0 -> a_sigma_so s = 0 -> a_NcBs s = 0 -> a_NsBsB s = 0 ->
  (forall x y, P x y k mu = p) ->
  galaxy_power (fun sg => FOG g k mu sg) (fun x y => P x y k mu) s = p.
Proof.
  intros H1 H2 H3 H4 H5 H6 HP. unfold galaxy_power, cen_cen, cen_sat, sat_sat. cbv zeta.
  rewrite H1, H2, H3, H4, H5, H6, !FOG_0, !HP. destruct (use_so s); ring.
Qed.

Lemma N_ignored k mu s v : fst (D m_power k mu (seta N_ v s)) = fst (D m_power k mu s).
Proof. rewrite !m_power_value. destruct s; reflexivity. Qed.
End C.
