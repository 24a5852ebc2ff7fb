(** Model of the constraint expressions of the default galaxy and quasar theories (rsdfit/theory/gal_defaults.py, qso_defaults.py):
    the dependent parameters as functions of the free ones, over the reals. Powers with a real exponent are taken of positive
    bases. The order in which the expressions are evaluated is the subject of M_ParamVal and M_TheoryDefaults. *)
From Coq Require Import Reals.
Local Open Scope R_scope.

(** gal_defaults.py:105 *)
Definition e_b1_cB (fsB Nsat_mult b1_sA b1_sB : R) : R :=
  (1 - fsB)/(1 + fsB*(1/Nsat_mult - 1)) * b1_sA + (1 - (1 - fsB)/(1 + fsB*(1/Nsat_mult - 1))) * b1_sB.
(** gal_defaults.py:113, 120 *)
Definition e_b1_sA (gamma_b1sA b1_cA : R) : R := gamma_b1sA * b1_cA.
Definition e_b1_sB (gamma_b1sB b1_cA : R) : R := gamma_b1sB * b1_cA.
(** gal_defaults.py:134 *)
Definition e_fcB (fs fsB Nsat_mult : R) : R := fs/(1 - fs) * (1 + fsB*(1/Nsat_mult - 1)).
(** gal_defaults.py:183 *)
Definition e_NcBs (f1h_cBs fcB fs nbar : R) : R := f1h_cBs / (fcB*(1 - fs)*nbar).
(** gal_defaults.py:191 *)
Definition e_NsBsB (f1h_sBsB fsB fs nbar fcB : R) : R := f1h_sBsB / (fsB^2 * fs^2 * nbar) * (fcB*(1 - fs) - fs*(1 - fsB)).
(** gal_defaults.py:275, 282, 289 *)
Definition e_b1_c (fcB b1_cA b1_cB : R) : R := (1 - fcB)*b1_cA + fcB*b1_cB.
Definition e_b1_s (fsB b1_sA b1_sB : R) : R := (1 - fsB)*b1_sA + fsB*b1_sB.
Definition e_b1 (fs b1_c b1_s : R) : R := (1 - fs)*b1_c + fs*b1_s.
(** gal_defaults.py:296, 303 and qso_defaults.py:136, 143 *)
Definition e_fsigma8 (f sigma8_z : R) : R := f*sigma8_z.
Definition e_b1sigma8 (b1 sigma8_z : R) : R := b1*sigma8_z.
(** gal_defaults.py:310, 317, 324 and qso_defaults.py:150, 157, 164 *)
Definition e_F_AP (alpha_par alpha_perp : R) : R := alpha_par/alpha_perp.
Definition e_alpha (alpha_perp alpha_par : R) : R := Rpower (alpha_perp^2 * alpha_par) (1/3).
Definition e_epsilon (alpha_perp alpha_par : R) : R := Rpower (alpha_perp/alpha_par) (-(1/3)) - 1.

(** All constraints of the galaxy theory together, in dependency order. *)
Record free := { p_fs : R; p_fsB : R; p_Nsat : R; p_bcA : R; p_gA : R; p_gB : R; p_nbar : R; p_f1c : R; p_f1s : R }.
Record derived := { d_bsA : R; d_bsB : R; d_bcB : R; d_fcB : R; d_NcBs : R; d_NsBsB : R; d_bc : R; d_bs : R; d_b1 : R }.
Definition constrain (p : free) : derived :=
  let bsA := e_b1_sA (p_gA p) (p_bcA p) in let bsB := e_b1_sB (p_gB p) (p_bcA p) in
  let bcB := e_b1_cB (p_fsB p) (p_Nsat p) bsA bsB in let fcB := e_fcB (p_fs p) (p_fsB p) (p_Nsat p) in
  let bc := e_b1_c fcB (p_bcA p) bcB in let bs := e_b1_s (p_fsB p) bsA bsB in
  {| d_bsA := bsA; d_bsB := bsB; d_bcB := bcB; d_fcB := fcB; d_NcBs := e_NcBs (p_f1c p) fcB (p_fs p) (p_nbar p);
     d_NsBsB := e_NsBsB (p_f1s p) (p_fsB p) (p_fs p) (p_nbar p) fcB; d_bc := bc; d_bs := bs; d_b1 := e_b1 (p_fs p) bc bs |}.
