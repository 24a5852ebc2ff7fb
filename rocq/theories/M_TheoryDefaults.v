(** * Default theory parameters (generated by tools/gen_params.py)

    /repo/pyRSD/rsdfit/theory/gal_defaults.py:62-324 and qso_defaults.py:61-164: names in sorted
    order (their position is the number), the parameters named in each constraint expression
    (functions such as sigmav_from_bias are not parameters), which are model parameters and which
    are varied.  Deprecated parameters are not part of the set.  The formulas themselves are not
    modelled: theorems quantify over all functions of the named symbols. *)
From Coq Require Import List.
Import ListNotations.

(** 0 F_AP, 1 N, 2 NcBs, 3 NsBsB, 4 Nsat_mult, 5 alpha, 6 alpha_drag, 7 alpha_par, 8 alpha_perp, 9 b1, 10 b1_c, 11 b1_cA, 12 b1_cB, 13 b1_s, 14 b1_sA, 15 b1_sB, 16 b1sigma8, 17 epsilon, 18 f, 19 f1h_cBs, 20 f1h_sBsB, 21 f_so, 22 fcB, 23 fs, 24 fsB, 25 fsigma8, 26 gamma_b1cB, 27 gamma_b1sA, 28 gamma_b1sB, 29 nbar, 30 sigma8_z, 31 sigma_c, 32 sigma_sA, 33 sigma_sB, 34 sigma_so *)
Definition gal_n : nat := 35.
Definition gal_names : list nat := seq 0 gal_n.
Definition gal_expr (n : nat) : option (list nat) :=
  match n with
  | 0 => Some [7; 8]  (* F_AP = alpha_par/alpha_perp *)
  | 2 => Some [19; 22; 23; 29]  (* NcBs = f1h_cBs / (fcB*(1 - fs)*nbar) *)
  | 3 => Some [20; 24; 23; 29; 22]  (* NsBsB = f1h_sBsB / (fsB**2 * fs**2 * nbar) * (fcB*(1 - fs) - fs*(1-fsB)) *)
  | 5 => Some [8; 7]  (* alpha = (alpha_perp**2 * alpha_par)**(1./3) *)
  | 9 => Some [23; 10; 13]  (* b1 = (1 - fs)*b1_c + fs*b1_s *)
  | 10 => Some [22; 11; 12]  (* b1_c = (1 - fcB)*b1_cA + fcB*b1_cB *)
  | 12 => Some [24; 4; 14; 15]  (* b1_cB = (1-fsB)/(1+fsB*(1./Nsat_mult - 1)) * b1_sA +  (1 - (1-fsB)/(1+fsB*(1./Nsat_mult - 1))) * b1_sB *)
  | 13 => Some [24; 14; 15]  (* b1_s = (1 - fsB)*b1_sA + fsB*b1_sB *)
  | 14 => Some [27; 11]  (* b1_sA = gamma_b1sA*b1_cA *)
  | 15 => Some [28; 11]  (* b1_sB = gamma_b1sB*b1_cA *)
  | 16 => Some [9; 30]  (* b1sigma8 = b1*sigma8_z *)
  | 17 => Some [8; 7]  (* epsilon = (alpha_perp/alpha_par)**(-1./3) - 1.0 *)
  | 22 => Some [23; 24; 4]  (* fcB = fs / (1 - fs) * (1 + fsB*(1./Nsat_mult - 1)) *)
  | 25 => Some [18; 30]  (* fsigma8 = f*sigma8_z *)
  | _ => None
  end.
Definition gal_model : list nat := [1; 2; 3; 6; 7; 8; 11; 12; 14; 15; 18; 21; 22; 23; 24; 30; 31; 32; 33; 34].
Definition gal_free : list nat := [4; 7; 8; 11; 18; 20; 23; 24; 27; 28; 30; 31; 32].
(** parameters with a registered analytic derivative, rsd/power/gal/derivatives *)
Definition gal_registered : list nat := [2; 3; 4; 7; 8; 19; 20; 21; 22; 23; 24; 31; 34].
(** With the constraint on sigma_sB of /repo/pyRSD/data/examples/params.dat (gal_defaults.py:174 builds the
    same expression but does not return it). *)
Definition galx_expr (n : nat) : option (list nat) :=
  if Nat.eqb n 33 then Some [32; 30; 15; 14] else gal_expr n.

(** 0 F_AP, 1 N, 2 alpha, 3 alpha_drag, 4 alpha_par, 5 alpha_perp, 6 b1, 7 b1sigma8, 8 epsilon, 9 f, 10 f_nl, 11 fsigma8, 12 p, 13 sigma8_z, 14 sigma_fog *)
Definition qso_n : nat := 15.
Definition qso_names : list nat := seq 0 qso_n.
Definition qso_expr (n : nat) : option (list nat) :=
  match n with
  | 0 => Some [4; 5]  (* F_AP = alpha_par/alpha_perp *)
  | 2 => Some [5; 4]  (* alpha = (alpha_perp**2 * alpha_par)**(1./3) *)
  | 7 => Some [6; 13]  (* b1sigma8 = b1*sigma8_z *)
  | 8 => Some [5; 4]  (* epsilon = (alpha_perp/alpha_par)**(-1./3) - 1.0 *)
  | 11 => Some [9; 13]  (* fsigma8 = f*sigma8_z *)
  | _ => None
  end.
Definition qso_model : list nat := [1; 3; 4; 5; 6; 9; 10; 12; 13; 14].
Definition qso_free : list nat := [4; 5; 6; 9; 10; 13; 14].
(** parameters with a registered analytic derivative, rsd/power/qso/derivatives *)
Definition qso_registered : list nat := [4; 5; 6; 9; 10; 13; 14].
